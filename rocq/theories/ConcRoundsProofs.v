(** Rounds of threads: lemmas for C49. *)
From Verif Require Import CSem Params FrodoSpec Macrify PropMatrix Kem KemProofs KemWp FrodoFacts PropKem Conc ConcProofs ConcKem ConcKemProofs PropConcKem
  Random ConcRandom ConcRandomProofs PropConcRandom ConcLib ConcLibProofs Process PropProcess ConcHist ConcHistProofs PropConcHist ConcRounds.

(** ** The effect of an action depends only on what it uses *)
Lemma stored_at mem a x i : region mem a (zlen x) -> 0 <= i < zlen mem -> a <= i < a + zlen x -> znth (stored mem a x) i = znth x (i - a).
Proof.
  intros R Hi H. destruct (stored_spec mem a x i R Hi) as (_ & ->).
  destruct (Z.leb_spec a i), (Z.ltb_spec i (a + zlen x)); cbn [andb]; try reflexivity; lia.
Qed.
Lemma stored_agree (U : Z -> Prop) m1 m2 a x : zlen m1 = zlen m2 -> region m1 a (zlen x) ->
  (forall i, 0 <= i < zlen m1 -> U i -> znth m1 i = znth m2 i) -> forall i, 0 <= i < zlen m1 -> U i -> znth (stored m1 a x) i = znth (stored m2 a x) i.
Proof.
  intros L R H i Hi Ui. assert (R2 : region m2 a (zlen x)) by (unfold region in *; lia).
  destruct (stored_spec m1 a x i R Hi) as (_ & ->). destruct (stored_spec m2 a x i R2 ltac:(lia)) as (_ & ->).
  destruct ((a <=? i) && (i <? a + zlen x)); [reflexivity|]. apply H; assumption.
Qed.
Lemma slice_agree (U : Z -> Prop) m1 m2 a n : zlen m1 = zlen m2 -> region m1 a n -> 0 <= n ->
  (forall i, 0 <= i < zlen m1 -> U i -> znth m1 i = znth m2 i) -> (forall i, a <= i < a + n -> U i) -> zslice m1 a n = zslice m2 a n.
Proof.
  intros L (R1 & R2) Hn H HU. apply list_ext; [rewrite !zlen_zslice by lia; reflexivity|]. rewrite zlen_zslice by lia. intros i Hi.
  rewrite !znth_zslice by lia. apply H; [lia|apply HU; lia].
Qed.
Lemma effect_len C r a mem : valid (cP C) -> bytestr (takes (cP C) a) r -> fits (cP C) mem a -> zlen (effect_of (cP C) (cGen C) r a mem) = zlen mem.
Proof.
  intros V Hr Hf. destruct (sizes C V) as (HN & HD & HB & HCB & ENN & EbB & HDN & EbC & EbMu & _).
  rewrite effect_of_stream by (try exact Hr; lia). apply effect_frame; assumption.
Qed.
Lemma effect_agree C r a (U : Z -> Prop) m1 m2 : valid (cP C) -> bytestr (takes (cP C) a) r -> zlen m1 = zlen m2 -> fits (cP C) m1 a ->
  (forall x, within (used (cP C) a) x -> U x) -> (forall i, 0 <= i < zlen m1 -> U i -> znth m1 i = znth m2 i) ->
  forall i, 0 <= i < zlen m1 -> U i -> znth (effect_of (cP C) (cGen C) r a m1) i = znth (effect_of (cP C) (cGen C) r a m2) i.
Proof.
  intros V (Lr & _) L Hf HU H.
  destruct (sizes C V) as (HN & HD & HB & HCB & ENN & EbB & HDN & EbC & EbMu & Epk & Esk & Ect & Esp & EH).
  destruct a as [pk sk|ct ss pk|ss ct sk|a x]; cbn [fits effect_of used written app takes] in *.
  - destruct Hf as (F1 & F2 & F3).
    pose proof (KeyGen_parts (cP C) (cGen C) V (zslice r 0 (pCB (cP C))) (zslice r (pCB (cP C)) (pCB (cP C))) (zslice r (2 * pCB (cP C)) 16) ltac:(apply zlen_zslice; lia)) as K.
    destruct (KeyGen _ _ _ _ _) as [PK SK]. destruct K as (L1 & _ & L2 & _). rewrite <- L1 in F1. rewrite <- L2 in F2.
    pose proof (stored_len _ _ _ F1) as E1. intros i Hi.
    apply (stored_agree U); [rewrite !stored_len by (unfold region in *; lia); lia|unfold region in *; lia| |lia].
    intros j Hj. apply (stored_agree U); [exact L|exact F1|exact H|lia].
  - destruct Hf as (F1 & F2 & F3 & _).
    rewrite <- (slice_agree U m1 m2 pk (pkBytes (cP C)) L F3 ltac:(lia) H).
    2:{ intros i Hi. apply HU. exists pk, (pkBytes (cP C)). split; [right; right; left; reflexivity|exact Hi]. }
    pose proof (Encaps_shape (cP C) (cGen C) V (zslice m1 pk (pkBytes (cP C))) r) as K.
    destruct (Encaps _ _ _ _) as [CT SS]. destruct K as (L1 & _ & L2 & _). rewrite <- L1 in F1. rewrite <- L2 in F2.
    pose proof (stored_len _ _ _ F1) as E1. intros i Hi.
    apply (stored_agree U); [rewrite !stored_len by (unfold region in *; lia); lia|unfold region in *; lia| |lia].
    intros j Hj. apply (stored_agree U); [exact L|exact F1|exact H|lia].
  - destruct Hf as (F1 & F2 & F3 & _).
    rewrite <- (slice_agree U m1 m2 ct (ctBytes (cP C)) L F2 ltac:(lia) H).
    2:{ intros i Hi. apply HU. exists ct, (ctBytes (cP C)). split; [right; left; reflexivity|exact Hi]. }
    rewrite <- (slice_agree U m1 m2 sk (skBytes (cP C)) L F3 ltac:(lia) H).
    2:{ intros i Hi. apply HU. exists sk, (skBytes (cP C)). split; [right; right; left; reflexivity|exact Hi]. }
    apply (stored_agree U); [exact L| |exact H].
    replace (zlen (Decaps _ _ _ _)) with (pCB (cP C)); [exact F1|]. unfold Decaps. destruct (Encrypt _ _ _ _ _ _) as [[? ?] ?]. symmetry. apply (F_zlen_Hash (cP C) (cGen C) V); lia.
  - apply (stored_agree U); [exact L|exact Hf|exact H].
Qed.

(** ** Lists of actions *)
Section L.
Variable C : config.
Hypothesis V : valid (cP C).
Local Notation P := (cP C).
Local Notation G := (cGen C).
Variable R : nat -> list Z.

Lemma after_len l : forall mem, sized P R l -> in_order P G R l mem -> zlen (after_all P G R l mem) = zlen mem.
Proof.
  induction l as [|[s a] l IH]; intros mem Hs Ho; [reflexivity|]. destruct Ho as (Hf & Ho). cbn [after_all].
  rewrite IH by (try exact Ho; intros ? ? ?; apply Hs; right; assumption). apply effect_len; auto. apply Hs. left. reflexivity.
Qed.
Lemma after_frame l : forall mem i, sized P R l -> in_order P G R l mem -> 0 <= i < zlen mem -> ~ writes_at P l i ->
  znth (after_all P G R l mem) i = znth mem i.
Proof.
  destruct (sizes C V) as (HN & HD & HB & HCB & ENN & EbB & HDN & EbC & EbMu & _).
  induction l as [|[s a] l IH]; intros mem i Hs Ho Hi Hw; [reflexivity|]. destruct Ho as (Hf & Ho). cbn [after_all].
  assert (Hr : bytestr (takes P a) (R s)) by (apply Hs; left; reflexivity).
  pose proof (effect_len C (R s) a mem V Hr Hf) as Le.
  rewrite IH; [|intros ? ? ?; apply Hs; right; assumption|exact Ho|lia|intros (s' & a' & Hin & Hx); apply Hw; exists s', a'; split; [right; exact Hin|exact Hx]].
  rewrite effect_of_stream by (try exact Hr; lia). apply (effect_frame C (znth (R s)) a 0 mem V Hf); [exact Hi|].
  intros o n Ho' Hin. apply Hw. exists s, a. split; [left; reflexivity|]. exists o, n. auto.
Qed.
Lemma after_agree l : forall (U : Z -> Prop) m1 m2, sized P R l -> in_order P G R l m1 -> zlen m1 = zlen m2 ->
  (forall x, uses_at P l x -> U x) -> (forall i, 0 <= i < zlen m1 -> U i -> znth m1 i = znth m2 i) ->
  forall i, 0 <= i < zlen m1 -> U i -> znth (after_all P G R l m1) i = znth (after_all P G R l m2) i.
Proof.
  destruct (sizes C V) as (HN & HD & HB & HCB & ENN & EbB & HDN & EbC & EbMu & _).
  induction l as [|[s a] l IH]; intros U m1 m2 Hs Ho L HU H i Hi Ui; [apply H; assumption|]. destruct Ho as (Hf & Ho). cbn [after_all].
  assert (Hr : bytestr (takes P a) (R s)) by (apply Hs; left; reflexivity).
  pose proof (effect_len C (R s) a m1 V Hr Hf) as Le.
  assert (EA : forall j, 0 <= j < zlen m1 -> U j -> znth (effect_of P G (R s) a m1) j = znth (effect_of P G (R s) a m2) j).
  { apply effect_agree; auto. intros x Hx. apply HU. exists s, a. split; [left; reflexivity|exact Hx]. }
  assert (L2 : zlen (effect_of P G (R s) a m1) = zlen (effect_of P G (R s) a m2)).
  { rewrite Le. destruct a as [pk sk|ct ss pk|ss ct sk|b x]; cbn [effect_of fits takes] in *; unfold region in *.
    - pose proof (KeyGen_parts P G V (zslice (R s) 0 (pCB P)) (zslice (R s) (pCB P) (pCB P)) (zslice (R s) (2 * pCB P) 16) ltac:(apply zlen_zslice; destruct Hr; lia)) as K.
      destruct (KeyGen _ _ _ _ _) as [PK SK]. destruct K as (L1 & _ & L2 & _). symmetry. unfold stored. rewrite !zlen_zsplice; rewrite ?zlen_zsplice; lia.
    - pose proof (Encaps_shape P G V (zslice m2 pk (pkBytes P)) (R s)) as K. destruct (Encaps P G (zslice m2 pk (pkBytes P)) (R s)) as [CT SS]. destruct K as (L1 & _ & L2 & _).
      symmetry. unfold stored. rewrite !zlen_zsplice; rewrite ?zlen_zsplice; lia.
    - symmetry. rewrite stored_len; [lia|]. unfold region. replace (zlen (Decaps _ _ _ _)) with (pCB P); [lia|]. unfold Decaps. destruct (Encrypt _ _ _ _ _ _) as [[? ?] ?]. symmetry. apply (F_zlen_Hash P G V); lia.
    - symmetry. rewrite stored_len; unfold region; lia. }
  apply (IH U); auto; try lia.
  - intros ? ? ?; apply Hs; right; assumption.
  - intros x (s' & a' & Hin & Hx). apply HU. exists s', a'. split; [right; exact Hin|exact Hx].
  - rewrite Le. exact EA.
Qed.

(** Threads that keep apart, one after another: each sees what it would see alone. *)
Lemma in_order_cat l l' mem : in_order P G R (l ++ l') mem <-> in_order P G R l mem /\ in_order P G R l' (after_all P G R l mem).
Proof. revert mem. induction l as [|[s a] l IH]; intros mem; cbn [app in_order after_all]; [tauto|]. rewrite IH. tauto. Qed.
Lemma writes_cat ls x : writes_at P (concat ls) x -> exists k l, nth_error ls k = Some l /\ writes_at P l x.
Proof.
  intros (s & a & Hin & Hx). apply in_concat in Hin as (l & Hl & Hin). apply In_nth_error in Hl as (k & Hk). exists k, l. split; [exact Hk|]. exists s, a. auto.
Qed.
Lemma one_by_one ls : forall mem,
  (forall l, In l ls -> sized P R l) ->
  (forall m, zlen m = zlen mem -> bytes_ok m -> forall l, In l ls -> in_order P G R l m /\ bytes_ok (after_all P G R l m)) -> bytes_ok mem ->
  (forall i j l l' x, i <> j -> nth_error ls i = Some l -> nth_error ls j = Some l' -> writes_at P l x -> uses_at P l' x -> False) ->
  zlen (after_all P G R (concat ls) mem) = zlen mem /\ bytes_ok (after_all P G R (concat ls) mem) /\
  (forall x, 0 <= x < zlen mem -> (forall l, In l ls -> ~ writes_at P l x) -> znth (after_all P G R (concat ls) mem) x = znth mem x) /\
  (forall i l x, 0 <= x < zlen mem -> nth_error ls i = Some l -> uses_at P l x -> znth (after_all P G R (concat ls) mem) x = znth (after_all P G R l mem) x).
Proof.
  induction ls as [|l0 ls IH]; intros mem Hs Ho Bm Hd.
  { cbn. repeat split; auto. intros [|i]; discriminate. }
  cbn [concat]. rewrite after_all_app. set (m1 := after_all P G R l0 mem).
  destruct (Ho mem eq_refl Bm l0 (or_introl eq_refl)) as (O0 & B0).
  assert (L1 : zlen m1 = zlen mem) by (apply after_len; [apply Hs; left; reflexivity|exact O0]).
  destruct (IH m1) as (IL & IB & IF & IU).
  - intros l Hl. apply Hs. right. exact Hl.
  - intros m Lm Bmm l Hl. apply Ho; [lia|exact Bmm|right; exact Hl].
  - exact B0.
  - intros i j l l' x Hij Hi Hj. apply (Hd (S i) (S j) l l' x); [congruence|exact Hi|exact Hj].
  - split; [lia|]. split; [exact IB|]. split.
    + intros x Hx Hw. rewrite IF; [|lia|intros l Hl; apply Hw; right; exact Hl].
      apply after_frame; [apply Hs; left; reflexivity|exact O0|exact Hx|apply Hw; left; reflexivity].
    + intros [|i] l x Hx Hi Hu; cbn in Hi.
      * injection Hi as <-. apply IF; [lia|]. intros l Hl Hw. apply In_nth_error in Hl as (k & Hk).
        apply (Hd (S k) O l l0 x); [congruence|exact Hk|reflexivity|exact Hw|exact Hu].
      * rewrite (IU i l x) by (try assumption; lia).
        apply (after_agree l (uses_at P l)); auto.
        -- apply Hs. right. apply (nth_error_In _ _ Hi).
        -- apply (Ho m1 L1 B0 l (or_intror (nth_error_In _ _ Hi))).
        -- intros y Hy Uy. apply after_frame; [apply Hs; left; reflexivity|exact O0|lia|].
           intros Hw. apply (Hd O (S i) l0 l y); [congruence|reflexivity|exact Hi|exact Hw|exact Uy].
        -- lia.
Qed.
End L.

Lemma placed_after C R l : valid (cP C) -> sized (cP C) R l -> forall mem, bytes_ok mem -> Forall (fun sa => placed (cP C) (zlen mem) (snd sa)) l ->
  in_order (cP C) (cGen C) R l mem /\ bytes_ok (after_all (cP C) (cGen C) R l mem).
Proof.
  intros V Hs mem Bm Hl. split; [apply C45_placed; assumption|]. revert mem Bm Hl.
  destruct (sizes C V) as (HN & HD & HB & HCB & ENN & EbB & HDN & EbC & EbMu & _).
  induction l as [|[s a] l IH]; intros mem Bm Hl; [exact Bm|]. inversion Hl as [|? ? Ha Hl']; subst. cbn [snd] in Ha. cbn [after_all].
  assert (Hr : bytestr (takes (cP C) a) (R s)) by (apply Hs; left; reflexivity).
  assert (St : forall i, 0 <= znth (R s) i < 256) by (intros i; apply inrange_znth_all; [lia|apply Hr]).
  pose proof (C43_placed C (znth (R s)) [a] 0 mem V St Bm ltac:(constructor; [exact Ha|constructor])) as (Hf & _).
  assert (L : zlen (effect_of (cP C) (cGen C) (R s) a mem) = zlen mem) by (apply effect_len; assumption).
  apply IH; [intros ? ? ?; apply Hs; right; assumption| |rewrite L; exact Hl'].
  rewrite effect_of_stream by (try exact Hr; lia). apply effect_bytes; assumption.
Qed.

(** ** From bytes per action to one stream *)
Lemma segment_ext st st' p q n : (forall i, 0 <= i < n -> st (p + i) = st' (q + i)) -> segment st p n = segment st' q n.
Proof. intros H. apply ztab_ext. exact H. Qed.
Lemma effect_shift P g st st' a p q mem : 0 <= pCB P -> (forall i, 0 <= i < takes P a -> st (p + i) = st' (q + i)) -> effect P g st a p mem = effect P g st' a q mem.
Proof.
  intros HC H. destruct a as [pk sk|ct ss pk|ss ct sk|b x]; cbn [effect takes] in *.
  - rewrite (segment_ext st st' p q (pCB P)) by (intros; apply H; lia).
    rewrite (segment_ext st st' (p + pCB P) (q + pCB P) (pCB P)) by (intros i Hi; rewrite <- !Z.add_assoc; apply H; lia).
    rewrite (segment_ext st st' (p + 2 * pCB P) (q + 2 * pCB P) 16) by (intros i Hi; rewrite <- !Z.add_assoc; apply H; lia). reflexivity.
  - rewrite (segment_ext st st' p q (bytesMu P)) by exact H. reflexivity.
  - reflexivity.
  - reflexivity.
Qed.
Lemma takes_nonneg C a : valid (cP C) -> 0 <= takes (cP C) a.
Proof. intros V. destruct (sizes C V) as (HN & HD & HB & HCB & ENN & EbB & HDN & EbC & EbMu & _). destruct a; cbn [takes]; lia. Qed.
Lemma taken_nonneg C l : valid (cP C) -> 0 <= taken (cP C) l.
Proof. intros V. induction l as [|a l IH]; cbn [taken]; [lia|]. pose proof (takes_nonneg C a V). lia. Qed.
Lemma taken_app P l l' : taken P (l ++ l') = taken P l + taken P l'.
Proof. induction l as [|a l IH]; cbn [taken app]; [reflexivity|]. rewrite IH. lia. Qed.
Lemma history_app P g st l l' : forall p mem, history P g st (l ++ l') p mem = history P g st l' (p + taken P l) (history P g st l p mem).
Proof. induction l as [|a l IH]; intros p mem; cbn [history taken app]; [f_equal; lia|]. rewrite IH. f_equal. lia. Qed.
Lemma history_ext C st st' l : valid (cP C) -> forall p mem, (forall i, p <= i < p + taken (cP C) l -> st i = st' i) ->
  history (cP C) (cGen C) st l p mem = history (cP C) (cGen C) st' l p mem.
Proof.
  intros V. destruct (sizes C V) as (HN & HD & HB & HCB & _).
  induction l as [|a l IH]; intros p mem H; cbn [history taken] in *; [reflexivity|]. pose proof (takes_nonneg C a V). pose proof (taken_nonneg C l V).
  rewrite (effect_shift (cP C) (cGen C) st st' a p p mem) by (try lia; intros i Hi; apply H; lia). apply IH. intros i Hi. apply H. lia.
Qed.
(** Distinct positions. *)
Definition fresh_in (pi : Z -> Z) (lo hi a b : Z) : Prop :=
  (forall p, lo <= p < hi -> a <= pi p < b) /\ (forall p q, lo <= p < hi -> lo <= q < hi -> p <> q -> pi p <> pi q).

Lemma one_stream C st rqs src l : valid (cP C) -> (forall p, 0 <= st p < 256) ->
  (forall s a, In (s, a) l -> exists b, nth_error rqs s = Some (b, takes (cP C) a)) -> NoDup (map fst l) ->
  (forall s a, In (s, a) l -> forall k k', 0 <= k < k' -> k' < takes (cP C) a -> src s k < src s k') ->
  (forall s a s' b, In (s, a) l -> In (s', b) l -> s <> s' -> forall k k', 0 <= k < takes (cP C) a -> 0 <= k' < takes (cP C) b -> src s k <> src s' k') ->
  forall p0, exists pi,
    (forall p, p0 <= p < p0 + taken (cP C) (map snd l) -> exists s a k, In (s, a) l /\ 0 <= k < takes (cP C) a /\ pi p = src s k) /\
    (forall p q, p0 <= p < p0 + taken (cP C) (map snd l) -> p0 <= q < p0 + taken (cP C) (map snd l) -> p <> q -> pi p <> pi q) /\
    forall mem, after_all (cP C) (cGen C) (drawn rqs st src) l mem = history (cP C) (cGen C) (fun p => st (pi p)) (map snd l) p0 mem.
Proof.
  intros V Hst. destruct (sizes C V) as (HN & HD & HB & HCB & ENN & EbB & HDN & EbC & EbMu & _).
  induction l as [|[s a] l IH]; intros Hq ND Hm Hx p0.
  { exists (fun p => p). cbn. repeat split; intros; try lia. }
  cbn [map fst] in ND. inversion ND as [|? ? N1 N2]; subst.
  assert (Hns : forall s' a', In (s', a') l -> s <> s').
  { intros s' a' Hin <-. apply N1. apply (in_map fst) in Hin. exact Hin. }
  destruct (IH ltac:(intros; apply Hq; right; assumption) N2 ltac:(intros s' a' Hin; apply (Hm s' a'); right; exact Hin)
    ltac:(intros s' a' s2 b Hin Hin2; apply (Hx s' a' s2 b); right; assumption) (p0 + takes (cP C) a)) as (pi & I1 & I2 & I3). clear IH.
  pose proof (takes_nonneg C a V) as Ht. pose proof (taken_nonneg C (map snd l) V) as Htl.
  exists (fun p => if p <? p0 + takes (cP C) a then src s (p - p0) else pi p). cbn [map snd taken].
  assert (HL : forall p, p0 <= p < p0 + takes (cP C) a -> (if p <? p0 + takes (cP C) a then src s (p - p0) else pi p) = src s (p - p0)).
  { intros p Hp. destruct (Z.ltb_spec p (p0 + takes (cP C) a)); [reflexivity|lia]. }
  assert (HR : forall p, p0 + takes (cP C) a <= p -> (if p <? p0 + takes (cP C) a then src s (p - p0) else pi p) = pi p).
  { intros p Hp. destruct (Z.ltb_spec p (p0 + takes (cP C) a)); [lia|reflexivity]. }
  split; [|split].
  - intros p Hp. destruct (Z_lt_ge_dec p (p0 + takes (cP C) a)) as [H1|H1].
    + exists s, a, (p - p0). rewrite HL by lia. split; [left; reflexivity|]. split; [lia|reflexivity].
    + rewrite HR by lia. destruct (I1 p ltac:(lia)) as (s' & a' & k & Hin & Hk & E). exists s', a', k. split; [right; exact Hin|]. auto.
  - assert (CR : forall p q, p0 <= p < p0 + takes (cP C) a -> p0 + takes (cP C) a <= q < p0 + (takes (cP C) a + taken (cP C) (map snd l)) -> src s (p - p0) <> pi q).
    { intros p q Hp Hq2. destruct (I1 q ltac:(lia)) as (s' & a' & k & Hin & Hk & ->). apply (Hx s a s' a'); [left; reflexivity|right; exact Hin|apply (Hns s' a' Hin)|lia|lia]. }
    intros p q Hp Hq2 Hne. destruct (Z_lt_ge_dec p (p0 + takes (cP C) a)) as [H1|H1]; destruct (Z_lt_ge_dec q (p0 + takes (cP C) a)) as [H2|H2].
    + rewrite !HL by lia. destruct (Z_lt_ge_dec p q) as [H3|H3].
      * pose proof (Hm s a (or_introl eq_refl) (p - p0) (q - p0) ltac:(lia) ltac:(lia)). lia.
      * pose proof (Hm s a (or_introl eq_refl) (q - p0) (p - p0) ltac:(lia) ltac:(lia)). lia.
    + rewrite HL, HR by lia. apply CR; lia.
    + rewrite HR, HL by lia. intros E. apply (CR q p); [lia|lia|congruence].
    + rewrite !HR by lia. apply I2; lia.
  - intros mem. cbn [after_all history]. rewrite I3. 
    assert (EE : effect_of (cP C) (cGen C) (drawn rqs st src s) a mem =
                 effect (cP C) (cGen C) (fun p => st (if p <? p0 + takes (cP C) a then src s (p - p0) else pi p)) a p0 mem).
    { destruct (Hq s a (or_introl eq_refl)) as (b & Hb). unfold drawn. rewrite Hb.
      rewrite effect_of_stream; [|lia|lia|split; [apply zlen_ztab; lia|apply inrange_ztab; auto]].
      apply effect_shift; [lia|]. intros i Hi. rewrite Z.add_0_l, znth_ztab by lia. rewrite HL by lia. do 2 f_equal. lia. }
    rewrite EE. apply history_ext; [exact V|]. intros i Hi. rewrite HR by lia. reflexivity.
Qed.
