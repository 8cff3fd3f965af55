(** Property C33: calls of the API by several threads at once. *)
From Verif Require Import CSem Params FrodoSpec Macrify Kem KemWp FrodoFacts PropKem Conc ConcProofs ConcKem ConcKemProofs.

Inductive call :=
| KeyPair (rb : generator) (pk sk : Z)
| Enc (rb : generator) (ct ss pk : Z)
| Dec (ss ct sk : Z).

(** What a call writes, and what it may read: regions (address, length). *)
Definition writes (C : config) (c : call) : list (Z * Z) :=
  let P := cP C in
  match c with
  | KeyPair _ pk sk => [(pk, pkBytes P); (sk, skBytes P)]
  | Enc _ ct ss _ => [(ct, ctBytes P); (ss, pCB P)]
  | Dec ss _ _ => [(ss, pCB P)]
  end.
Definition inputs (C : config) (c : call) : list (Z * Z) :=
  let P := cP C in
  match c with
  | KeyPair _ _ _ => []
  | Enc _ _ _ pk => [(pk, pkBytes P)]
  | Dec _ ct sk => [(ct, ctBytes P); (sk, skBytes P)]
  end.
(** The call, started with this memory, has its arguments in place, and FrodoKEM (FrodoSpec.v)
    prescribes these outputs for it: byte strings with their addresses. *)
Inductive prescribed (C : config) (mem : list Z) : call -> list (Z * list Z) -> Prop :=
| pres_keypair rb rc pk sk s seedSE z :
    let P := cP C in
    bytestr (pCB P) s -> bytestr (pCB P) seedSE -> bytestr 16 z ->
    delivers rb (2 * pCB P + 16) (s ++ seedSE ++ z) rc ->
    region mem pk (pkBytes P) -> region mem sk (skBytes P) -> disjoint pk (pkBytes P) sk (skBytes P) ->
    prescribed C mem (KeyPair rb pk sk)
      [(pk, fst (KeyGen P (cGen C) s seedSE z)); (sk, snd (KeyGen P (cGen C) s seedSE z))]
| pres_enc rb rc ct ss pk PK mu :
    let P := cP C in
    bytestr (bytesMu P) mu -> delivers rb (bytesMu P) mu rc ->
    holds mem pk (pkBytes P) PK -> bytes_ok PK ->
    region mem ct (ctBytes P) -> region mem ss (pCB P) ->
    disjoint ct (ctBytes P) pk (pkBytes P) -> disjoint ct (ctBytes P) ss (pCB P) ->
    prescribed C mem (Enc rb ct ss pk)
      [(ct, fst (Encaps P (cGen C) PK mu)); (ss, snd (Encaps P (cGen C) PK mu))]
| pres_dec ss ct sk CT SK :
    let P := cP C in
    holds mem sk (skBytes P) SK -> bytes_ok SK -> sk mod 2 = 0 ->
    holds mem ct (ctBytes P) CT -> bytes_ok CT -> region mem ss (pCB P) ->
    prescribed C mem (Dec ss ct sk) [(ss, Decaps P (cGen C) SK CT)].
(** No call writes where another one reads or writes.  Keys and ciphertexts may be shared. *)
Definition apart (C : config) (cs : list call) : Prop :=
  forall i k a b, i <> k -> nth_error cs i = Some a -> nth_error cs k = Some b ->
  forall o n o' n', In (o, n) (writes C a) -> In (o', n') (writes C b ++ inputs C b) -> disjoint o n o' n'.
(** The builds without the global pointer of aes_c.c in use. *)
Definition reentrant (C : config) : Prop := cGen C = GenSHAKE \/ cAes C <> AesC.

(** [me] is what the thread would store in the global. *)
Definition program (C : config) (me : Z) (c : call) : prog Z :=
  match c with
  | KeyPair rb pk sk => keypair_p C me rb pk sk
  | Enc rb ct ss pk => enc_p C me rb ct ss pk
  | Dec ss ct sk => dec_p C me ss ct sk
  end.

Definition within (l : list (Z * Z)) (a : Z) : Prop := exists o n, In (o, n) l /\ o <= a < o + n.

Lemma holds_stored2 mem a x b y : region mem a (zlen x) -> region mem b (zlen y) -> disjoint a (zlen x) b (zlen y) ->
  holds (stored (stored mem a x) b y) a (zlen x) x /\ holds (stored (stored mem a x) b y) b (zlen y) y.
Proof.
  unfold region, disjoint, holds, stored. intros (A1 & A2) (B1 & B2) D. pose proof (zlen_nonneg x). pose proof (zlen_nonneg y).
  assert (L : zlen (zsplice mem a x) = zlen mem) by (apply zlen_zsplice; lia).
  assert (L2 : zlen (zsplice (zsplice mem a x) b y) = zlen mem) by (rewrite zlen_zsplice; lia).
  unfold region. split; (split; [lia|]); (apply list_ext; [rewrite zlen_zslice; lia|]); rewrite zlen_zslice by lia; intros i Hi; rewrite znth_zslice by lia; rewrite znth_zsplice by lia.
  - destruct (Z.leb_spec b (a + i)), (Z.ltb_spec (a + i) (b + zlen y)); cbn [andb]; try lia;
    rewrite znth_zsplice by lia; destruct (Z.leb_spec a (a + i)), (Z.ltb_spec (a + i) (a + zlen x)); cbn [andb]; try lia; f_equal; lia.
  - destruct (Z.leb_spec b (b + i)), (Z.ltb_spec (b + i) (b + zlen y)); cbn [andb]; try lia. f_equal; lia.
Qed.
Lemma holds_stored mem a x : region mem a (zlen x) -> holds (stored mem a x) a (zlen x) x.
Proof.
  unfold region, holds, stored. intros (A1 & A2). pose proof (zlen_nonneg x).
  assert (L : zlen (zsplice mem a x) = zlen mem) by (apply zlen_zsplice; lia).
  unfold region. split; [lia|]. apply list_ext; [rewrite zlen_zslice; lia|]. rewrite zlen_zslice by lia. intros i Hi. rewrite znth_zslice by lia. rewrite znth_zsplice by lia.
  destruct (Z.leb_spec a (a + i)), (Z.ltb_spec (a + i) (a + zlen x)); cbn [andb]; try lia; f_equal; lia.
Qed.

Lemma call_alone C me mem c outs : valid (cP C) -> build_ok C -> reentrant C -> prescribed C mem c outs ->
  obeys (within (writes C c ++ inputs C c)) (within (writes C c)) (program C me c) mem /\
  exists mem', (forall g, solo (program C me c) mem g = (ret 0, mem', g)) /\
    forall a x, In (a, x) outs -> holds mem' a (zlen x) x /\ forall i, a <= i < a + zlen x -> within (writes C c ++ inputs C c) i.
Proof.
  intros V Hb Hre Hp. set (P := cP C).
  assert (HS : uses_state C = false) by (unfold uses_state; destruct Hre as [E|E]; [rewrite E; reflexivity|destruct (cGen C), (cAes C); congruence]).
  assert (HSZ : 0 < pN P /\ 0 < pCB P /\ 0 < pD P * pN P) by (destruct (sizes C V) as (? & ? & ? & ? & ? & ? & ? & ?); auto).
  destruct Hp as [rb rc pk sk s seedSE z P0 Hs Hse Hz Hrb Hpk Hsk Hd|rb rc ct ss pk PK mu P0 Hmu Hrb Hpk BPK Hct Hss Hd Hd2|ss ct sk CT SK P0 Hsk BSK Hal Hct BCT Hss]; subst P0.
  - pose proof (C05_keypair C rb rc mem pk sk s seedSE z V Hs Hse Hz Hrb Hpk Hsk Hd) as H.
    pose proof (KeyGen_parts P (cGen C) V s seedSE z (proj1 Hs)) as K. fold P in H |- *.
    destruct (KeyGen P (cGen C) s seedSE z) as [PK SK]. destruct H as (l & t & E). destruct K as (L1 & _ & L2 & _).
    destruct (keypair_ref C me HS HSZ rb mem pk sk _ _ E) as (O & bv & mem' & S & (E1 & E2)). cbn [fst snd] in E1, E2. subst bv mem'. split.
    + eapply obeys_mono; [| |exact O]; cbn [writes inputs app]; unfold in_range, within; intros a [Ha|Ha]; eexists; eexists; (split; [|exact Ha]); cbn [In]; auto.
    + eexists. split; [exact S|]. cbn [fst snd In]. fold P in Hpk, Hsk, Hd. rewrite <- L1 in Hpk, Hd. rewrite <- L2 in Hsk, Hd.
      destruct (holds_stored2 mem pk PK sk SK Hpk Hsk Hd) as (Q1 & Q2).
      intros a x [Ex|[Ex|[]]]; injection Ex as <- <-; (split; [assumption|]); intros i Hi; eexists; eexists; (split; [|exact Hi]); cbn [writes app In]; fold P; rewrite ?L1, ?L2; auto.
  - pose proof (C05_enc C rb rc mem ct ss pk PK mu V Hb Hmu Hrb Hpk BPK Hct Hss Hd) as H.
    pose proof (Encaps_shape P (cGen C) V PK mu) as K. fold P in H |- *.
    destruct (Encaps P (cGen C) PK mu) as [CT SS]. destruct H as (l & t & E). destruct K as (L1 & _ & L2 & _).
    destruct (enc_ref C me HS HSZ rb mem ct ss pk _ _ E) as (O & bv & mem' & S & (E1 & E2)). cbn [fst snd] in E1, E2. subst bv mem'. split.
    + eapply obeys_mono; [| |exact O]; cbn [writes inputs app]; unfold in_range, within; intros a Ha; repeat destruct Ha as [Ha|Ha]; eexists; eexists; (split; [|exact Ha]); cbn [In]; auto.
    + eexists. split; [exact S|]. cbn [fst snd In]. fold P in Hct, Hss, Hd2. rewrite <- L1 in Hct, Hd2. rewrite <- L2 in Hss, Hd2.
      destruct (holds_stored2 mem ct CT ss SS Hct Hss Hd2) as (Q1 & Q2).
      intros a x [Ex|[Ex|[]]]; injection Ex as <- <-; (split; [assumption|]); intros i Hi; eexists; eexists; (split; [|exact Hi]); cbn [writes app In]; fold P; rewrite ?L1, ?L2; auto.
  - destruct (C05_dec C mem ss ct sk CT SK V Hb Hsk BSK Hal Hct BCT Hss) as (l & t & E). fold P in E |- *.
    assert (L1 : zlen (Decaps P (cGen C) SK CT) = pCB P).
    { unfold Decaps. destruct (Encrypt _ _ _ _ _ _) as [[? ?] ?]. apply (F_zlen_Hash P (cGen C) V); lia. }
    destruct (dec_ref C me HS HSZ mem ss ct sk _ _ E) as (O & bv & mem' & S & (E1 & E2)). cbn [fst snd] in E1, E2. subst bv mem'. split.
    + eapply obeys_mono; [| |exact O]; cbn [writes inputs app]; unfold in_range, within; intros a Ha; repeat destruct Ha as [Ha|Ha]; eexists; eexists; (split; [|exact Ha]); cbn [In]; auto.
    + eexists. split; [exact S|]. cbn [In]. fold P in Hss. rewrite <- L1 in Hss.
      intros a x [Ex|[]]; injection Ex as <- <-; (split; [now apply holds_stored|]); intros i Hi; eexists; eexists; (split; [|exact Hi]); cbn [writes app In]; fold P; rewrite ?L1; auto.
Qed.

(** ** Any number of threads, each making one call, in every schedule, for every parameter set and
    every build without the portable AES in use: there is a number of turns after which a call has
    returned, the same for all schedules; a call that has returned has returned 0 and its outputs
    are what FrodoKEM prescribes; bytes that are nobody's output never change. *)
Theorem C33_threads : forall C mem g cs,
  valid (cP C) -> build_ok C -> reentrant C ->
  (forall i me c, nth_error cs i = Some (me, c) -> exists outs, prescribed C mem c outs) -> apart C (map snd cs) ->
  exists turns : nat, forall sched,
  let w := exec sched (mkw mem g (map (fun mc => program C (fst mc) (snd mc)) cs)) in
  zlen (w_mem w) = zlen mem /\
  (forall a, (forall i me c, nth_error cs i = Some (me, c) -> ~ within (writes C c) a) -> znth (w_mem w) a = znth mem a) /\
  forall i me c, nth_error cs i = Some (me, c) -> exists p, nth_error (w_thr w) i = Some p /\
    ((turns <= count_occ Nat.eq_dec sched i)%nat -> ended p = Some (ret 0)) /\
    (forall r, ended p = Some r -> r = ret 0 /\
       forall outs, prescribed C mem c outs -> forall a x, In (a, x) outs -> holds (w_mem w) a (zlen x) x).
Proof.
  intros C mem g cs V Hb Hre HP HA. set (Ps := map (fun mc => program C (fst mc) (snd mc)) cs).
  set (W := fun i a => exists me c, nth_error cs i = Some (me, c) /\ within (writes C c) a).
  set (R := fun i a => exists me c, nth_error cs i = Some (me, c) /\ within (writes C c ++ inputs C c) a).
  assert (HO : forall i p, nth_error Ps i = Some p -> obeys (R i) (W i) p mem).
  { intros i p E. unfold Ps in E. rewrite nth_error_map in E. destruct (nth_error cs i) as [[me c]|] eqn:Ec; [|discriminate]. injection E as <-.
    destruct (HP i me c Ec) as (outs & Hp). destruct (call_alone C me mem c outs V Hb Hre Hp) as (O & _).
    eapply obeys_mono; [| |exact O]; intros a Ha; exists me, c; auto. }
  assert (HD : forall i k a, i <> k -> W i a -> R k a -> False).
  { intros i k a Hn (m1 & x & Ex & (o & n & I1 & H1)) (m2 & y & Ey & (o' & n' & I2 & H2)).
    assert (D : disjoint o n o' n').
    { apply (HA i k x y Hn); [rewrite nth_error_map, Ex; reflexivity|rewrite nth_error_map, Ey; reflexivity|exact I1|exact I2]. }
    unfold disjoint in D. lia. }
  exists (list_max (map (fun p => actions p mem g) Ps)). intros sched.
  destruct (interleave Z Ps R W mem g HO HD sched) as (L & Out & Th). cbv zeta in *.
  split; [exact L|]. split.
  { intros a Ha. apply Out. intros i p E (me & c & Ec & Hc). exact (Ha i me c Ec Hc). }
  intros i me c Ec. assert (Ep : nth_error Ps i = Some (program C me c)) by (unfold Ps; rewrite nth_error_map, Ec; reflexivity).
  destruct (Th i _ Ep) as (p' & E' & Prog & Res). exists p'. split; [exact E'|].
  assert (Fin : forall r, ended p' = Some r -> r = ret 0 /\
       forall outs, prescribed C mem c outs -> forall a x, In (a, x) outs -> holds (w_mem (exec sched (mkw mem g Ps))) a (zlen x) x).
  { intros r Hr. destruct (Res r Hr) as (m' & Sm & Lm & Am). split.
    - destruct (HP i me c Ec) as (outs & Hp). destruct (call_alone C me mem c outs V Hb Hre Hp) as (_ & mem' & Sa & _). rewrite Sa in Sm.
      apply (f_equal (fun z => fst (fst z))) in Sm. symmetry. exact Sm.
    - intros outs Hp a x Hin. destruct (call_alone C me mem c outs V Hb Hre Hp) as (_ & mem' & Sa & Ho).
      rewrite Sa in Sm. apply (f_equal (fun z => snd (fst z))) in Sm. cbn [fst snd] in Sm. subst m'.
      destruct (Ho a x Hin) as (((A1 & A2) & Hx) & Hw). split; [split; lia|]. rewrite <- Hx at 2. pose proof (zlen_nonneg x).
      apply list_ext; [rewrite !zlen_zslice; lia|]. rewrite zlen_zslice by lia. intros k Hk. rewrite !znth_zslice by lia.
      apply Am. exists me, c. split; [exact Ec|apply Hw; lia]. }
  split; [|exact Fin].
  intros Ht. destruct (Prog) as (r & Hr).
  { eapply Nat.le_trans; [|exact Ht].
    assert (Hall : forall l : list nat, Forall (fun x => (x <= list_max l)%nat) l) by (intros l; apply list_max_le; lia).
    specialize (Hall (map (fun p => actions p mem g) Ps)). rewrite Forall_forall in Hall. apply Hall.
    apply in_map_iff. exists (program C me c). split; [reflexivity|]. eapply nth_error_In, Ep. }
  destruct (Fin r Hr) as (-> & _). exact Hr.
Qed.
Print Assumptions C33_threads.

(** The hypotheses are met by three threads: one decapsulates, one encapsulates with the public
    key at 20000, and one makes a key pair; FrodoKEM-976 with SHAKE. *)
Definition mem3 : list Z := ztab 200000 (fun i => (i * i + 5) mod 256).
Definition cs3 : list (Z * call) :=
  [(1, Dec 0 1000 50000); (2, Enc rand976 90000 106000 20000); (3, KeyPair rand976 110000 130000)].
Example C33_hyps :
  (forall i me c, nth_error cs3 i = Some (me, c) -> exists outs, prescribed C976 mem3 c outs) /\ apart C976 (map snd cs3) /\
  valid (cP C976) /\ build_ok C976 /\ reentrant C976.
Proof.
  assert (L : zlen mem3 = 200000) by (apply zlen_ztab; lia).
  assert (Bm : bytes_ok mem3) by (apply inrange_ztab; intros; apply mod256).
  assert (Epk : pkBytes (cP C976) = 15632) by reflexivity. assert (Esk : skBytes (cP C976) = 31296) by reflexivity.
  assert (Ect : ctBytes (cP C976) = 15744) by reflexivity. assert (ECB : pCB (cP C976) = 24) by reflexivity. assert (Emu : bytesMu (cP C976) = 24) by reflexivity.
  destruct C05_keypair_hyps as (K1 & K2 & K3 & K4 & _).
  split; [|split; [|split; [exact valid_976|split; [intros H; exfalso; apply H; reflexivity|left; reflexivity]]]].
  - intros [|[|[|i]]] me c E; cbn in E; try (destruct i; discriminate); injection E as <- <-; eexists.
    + eapply pres_dec; [split; [|reflexivity]|apply inrange_zslice; exact Bm|reflexivity|split; [|reflexivity]|apply inrange_zslice; exact Bm|];
        rewrite ?Esk, ?Ect, ?ECB; split; lia.
    + eapply (pres_enc _ _ rand976 0 90000 106000 20000 _ (ztab 24 (fun i => (i * 7 + 3) mod 256)));
        [rewrite Emu; apply bytestr_ztab; [lia|intros; apply mod256]|exists []; reflexivity|split; [|reflexivity]|apply inrange_zslice; exact Bm| | | |];
        unfold region, disjoint; rewrite ?Epk, ?Ect, ?ECB; lia.
    + eapply (pres_keypair C976 mem3 rand976 0 110000 130000 _ _ _ K1 K2 K3 K4); unfold region, disjoint; rewrite ?Epk, ?Esk; lia.
  - intros i k a b Hn Ea Eb o n o' n' I1 I2.
    destruct i as [|[|[|i]]]; cbn in Ea; try (destruct i; discriminate); injection Ea as <-;
    destruct k as [|[|[|k]]]; cbn in Eb; try (destruct k; discriminate); injection Eb as <-; try congruence;
    cbn [writes inputs app In] in I1, I2; rewrite ?Epk, ?Esk, ?Ect, ?ECB in I1, I2;
    repeat destruct I1 as [I1|I1]; try contradiction; injection I1 as <- <-;
    repeat destruct I2 as [I2|I2]; try contradiction; injection I2 as <- <-; unfold disjoint; change (cP C976) with frodo976 in *; rewrite ?Epk, ?Esk, ?Ect, ?ECB; lia.
Qed.
