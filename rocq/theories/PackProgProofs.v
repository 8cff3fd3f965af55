(** frodo_pack with its output in the caller's memory (ConcKem.v): alone it does what Util.v says,
    it touches nothing but its output, and every byte it stores is the final one with some of its
    low bits still zero. *)
From Verif Require Import CSem Params Util Conc ConcProofs ConcKem.

(** v is f with its low j bits cleared, for some j. *)
Definition top_bits (v f : Z) : Prop := exists j, 0 <= j <= 8 /\ v = f / 2 ^ j * 2 ^ j.

(** A program that, run alone, loads only bytes in L, stores only bytes as S says, leaves the
    global alone and ends with Q. *)
Section Inside.
Variables (L : Z -> Prop) (S : Z -> Z -> Prop).
Fixpoint inside {A} (p : prog A) (mem : list Z) (Q : A -> list Z -> Prop) : Prop :=
  match p with
  | Ret a => Q a mem
  | Fault _ => False
  | Ld a k => in_mem mem a = true /\ L a /\ inside (k (znth mem a)) mem Q
  | St a v k => in_mem mem a = true /\ S a v /\ inside k (zset mem a v) Q
  | Gld _ | Gst _ _ => False
  end.
Lemma inside_bind {A B} (p : prog A) (f : A -> prog B) (Q : B -> list Z -> Prop) : forall mem, inside p mem (fun a m => inside (f a) m Q) -> inside (pbind p f) mem Q.
Proof. induction p as [a|e|a k IH|a v k IH|k IH|v k IH]; intros mem H; cbn [pbind inside] in *; auto; destruct H as (H1 & H2 & H3); auto. Qed.
Lemma inside_mono {A} (p : prog A) (Q Q' : A -> list Z -> Prop) : forall mem, inside p mem Q -> (forall a m, Q a m -> Q' a m) -> inside p mem Q'.
Proof. induction p as [a|e|a k IH|a v k IH|k IH|v k IH]; intros mem H HQ; cbn [inside] in *; auto; destruct H as (H1 & H2 & H3); auto. Qed.
Lemma inside_loc {A} (m : res A) a t mem (Q : A -> list Z -> Prop) : m = Ok a t -> Q a mem -> inside (loc m) mem Q.
Proof. intros -> H. exact H. Qed.
Lemma inside_stn l (Q : unit -> list Z -> Prop) : forall o mem, 0 <= o -> o + zlen l <= zlen mem -> (forall i, 0 <= i < zlen l -> S (o + i) (znth l i)) ->
  Q tt (zsplice mem o l) -> inside (stn o l) mem Q.
Proof.
  induction l as [|v l IH]; intros o mem Ho Hl HS HQ; cbn [stn inside].
  - change (zlen []) with 0 in *. rewrite zsplice_nil in HQ by lia. exact HQ.
  - rewrite zlen_cons in *. pose proof (zlen_nonneg l). split; [apply in_mem_true; lia|]. split.
    + specialize (HS 0 ltac:(lia)). rewrite znth_cons0, Z.add_0_r in HS. exact HS.
    + apply IH; rewrite ?zlen_zset; try lia.
      * intros i Hi. specialize (HS (i + 1) ltac:(lia)). rewrite znth_consS in HS by lia. replace (o + 1 + i) with (o + (i + 1)) by lia. replace (i + 1 - 1) with i in HS by lia. exact HS.
      * replace (zsplice (zset mem o v) (o + 1) l) with (zsplice mem o (v :: l)); [exact HQ|]. symmetry.
        apply list_ext; [rewrite !zlen_zsplice; rewrite ?zlen_zset, ?zlen_cons; lia|].
        intros i Hi. rewrite !znth_zsplice by (rewrite ?zlen_zset, ?zlen_cons; lia). rewrite zlen_cons.
        destruct (Z.eq_dec o i) as [<-|Hn].
        -- destruct (Z.leb_spec (o + 1) o); [lia|]. cbn [andb]. rewrite znth_zset_eq by lia.
           destruct (Z.leb_spec o o), (Z.ltb_spec o (o + (1 + zlen l))); try lia. cbn [andb]. rewrite Z.sub_diag. reflexivity.
        -- rewrite znth_zset_ne by lia.
           destruct (Z.leb_spec (o + 1) i), (Z.ltb_spec i (o + 1 + zlen l)), (Z.leb_spec o i), (Z.ltb_spec i (o + (1 + zlen l))); cbn [andb]; try lia; try reflexivity.
           rewrite znth_consS by lia. f_equal. lia.
Qed.
End Inside.
Lemma inside_obeys {A} (L : Z -> Prop) (S : Z -> Z -> Prop) (p : prog A) Q : forall mem, inside L S p mem Q -> obeys L (fun a => exists v, S a v) p mem.
Proof. induction p as [a|e|a k IH|a v k IH|k IH|v k IH]; intros mem H; cbn [inside obeys] in *; auto; destruct H as (H1 & H2 & H3); eauto. Qed.
Lemma inside_solo {A} L S (p : prog A) Q : forall mem, inside L S p mem Q -> exists a m, (forall g, solo p mem g = (ret a, m, g)) /\ Q a m.
Proof.
  induction p as [a|e|a k IH|a v k IH|k IH|v k IH]; intros mem H; cbn [inside solo] in *; try contradiction.
  - exists a, mem. auto.
  - destruct H as (H1 & _ & H3). rewrite H1. destruct (IH _ _ H3) as (x & m & E & HQ). exists x, m. auto.
  - destruct H as (H1 & _ & H3). rewrite H1. destruct (IH _ H3) as (x & m & E & HQ). exists x, m. auto.
Qed.

(** ** One byte *)
Lemma byte_step v t b nb : 0 <= b -> 0 <= nb -> b + nb <= 8 -> 0 <= v < 256 -> v mod 2 ^ (8 - b) = 0 -> 0 <= t < 2 ^ nb ->
  let v' := v + t * 2 ^ (8 - b - nb) in 0 <= v' < 256 /\ v' mod 2 ^ (8 - (b + nb)) = 0 /\ v' / 2 ^ (8 - b) = v / 2 ^ (8 - b).
Proof.
  intros Hb Hn Hs Hv Hm Ht v'. set (A := 2 ^ (8 - b - nb)) in *. set (B := 2 ^ nb) in *.
  assert (E : 2 ^ (8 - b) = A * B) by (unfold A, B; rewrite <- Z.pow_add_r by lia; f_equal; lia).
  assert (E2 : 256 = 2 ^ b * (A * B)) by (rewrite <- E, <- Z.pow_add_r by lia; replace (b + (8 - b)) with 8 by lia; reflexivity).
  assert (HA : 0 < A) by (apply Z.pow_pos_nonneg; lia). assert (HB : 0 < B) by (apply Z.pow_pos_nonneg; lia).
  rewrite E in *. pose proof (Z.div_mod v (A * B) ltac:(nia)) as D. rewrite Hm, Z.add_0_r in D. set (q := v / (A * B)) in *.
  assert (Hq : 0 <= q) by (apply Z.div_pos; nia). assert (Hq2 : q < 2 ^ b) by nia.
  assert (Ev : v' = (q * B + t) * A) by (unfold v'; rewrite D; ring). rewrite Ev. repeat split.
  - nia.
  - assert (q * B + t < 2 ^ b * B) by nia. nia.
  - replace (8 - (b + nb)) with (8 - b - nb) by lia. apply Z.mod_mul. lia.
  - rewrite Z.mul_comm, Z.div_mul_cancel_l by lia. rewrite Z.div_add_l by lia. rewrite (Z.div_small t B) by lia. lia.
Qed.
Lemma keep_trans v v1 v2 b b1 : 0 <= b <= b1 -> b1 <= 8 -> v1 / 2 ^ (8 - b) = v / 2 ^ (8 - b) -> v2 / 2 ^ (8 - b1) = v1 / 2 ^ (8 - b1) -> v2 / 2 ^ (8 - b) = v / 2 ^ (8 - b).
Proof.
  intros H H1 E1 E2. rewrite <- E1. replace (8 - b) with ((8 - b1) + (b1 - b)) by lia. rewrite Z.pow_add_r by lia.
  rewrite <- !Z.div_div by (try apply Z.pow_nonzero; try apply Z.pow_pos_nonneg; lia). now rewrite E2.
Qed.
Lemma top_of v f b : 0 <= b <= 8 -> v mod 2 ^ (8 - b) = 0 -> f / 2 ^ (8 - b) = v / 2 ^ (8 - b) -> top_bits v f.
Proof.
  intros Hb Hm E. exists (8 - b). split; [lia|]. rewrite E. pose proof (Z.div_mod v (2 ^ (8 - b)) ltac:(apply Z.pow_nonzero; lia)). lia.
Qed.
Lemma top_zero f : 0 <= f < 256 -> top_bits 0 f.
Proof. intros H. exists 8. split; [lia|]. change (2 ^ 8) with 256. now rewrite Z.div_small. Qed.

Lemma ok_bind {A B} (m : res A) (f : A -> res B) b t : bind m f = Ok b t -> exists a t1 t2, m = Ok a t1 /\ f a = Ok b t2.
Proof.
  unfold bind. destruct m as [a t1|]; [|discriminate]. destruct (f a) as [b' t2|] eqn:E; [|discriminate].
  intros H; injection H as <- _. exists a, t1, t2. auto.
Qed.
Lemma ok_branch {A} c (m1 m2 : res A) a t : branch c m1 m2 = Ok a t -> exists t', (if c then m1 else m2) = Ok a t'.
Proof. intros E. apply ok_bind in E. destruct E as (? & ? & t2 & _ & E). eauto. Qed.
Lemma ok_shl32 x n y t : shl32 x n = Ok y t -> 0 <= n < 32 /\ 0 <= x /\ y = x * 2 ^ n.
Proof.
  unfold shl32. destruct (Z.leb_spec 0 n); [|discriminate]. destruct (Z.ltb_spec n 32); [|discriminate]. destruct (Z.leb_spec 0 x); [|discriminate].
  cbn [andb]. destruct (_ <? _); [|discriminate]. intros E; injection E as <- _. rewrite Z.shiftl_mul_pow2 by lia. lia.
Qed.

(** ** The loops *)
Section Pack.
Variables (mem0 inp : list Z) (o n inlen lsb : Z).
Hypothesis Ho : 0 <= o.
Hypothesis Hn : o + n <= zlen mem0.
Lemma splice_rd out i : zlen out = n -> 0 <= i < n -> in_mem (zsplice mem0 o out) (o + i) = true /\ znth (zsplice mem0 o out) (o + i) = znth out i.
Proof.
  intros L Hi. split; [apply in_mem_true; rewrite zlen_zsplice; lia|]. rewrite znth_zsplice by lia.
  destruct (Z.leb_spec o (o + i)), (Z.ltb_spec (o + i) (o + zlen out)); try lia. cbn [andb]. f_equal. lia.
Qed.
Lemma splice_wr out i v : zlen out = n -> 0 <= i < n -> zset (zsplice mem0 o out) (o + i) v = zsplice mem0 o (zset out i v).
Proof.
  intros L Hi. apply list_ext; [rewrite zlen_zset, !zlen_zsplice; rewrite ?zlen_zset; lia|]. rewrite zlen_zset, zlen_zsplice by lia. intros k Hk.
  destruct (Z.eq_dec (o + i) k) as [<-|Hne].
  - rewrite znth_zset_eq by (rewrite zlen_zsplice; lia). rewrite znth_zsplice by (rewrite ?zlen_zset; lia). rewrite zlen_zset.
    destruct (Z.leb_spec o (o + i)), (Z.ltb_spec (o + i) (o + zlen out)); try lia. cbn [andb]. replace (o + i - o) with i by lia. rewrite znth_zset_eq by lia. reflexivity.
  - rewrite znth_zset_ne by (rewrite ?zlen_zsplice; lia). rewrite !znth_zsplice by (rewrite ?zlen_zset; lia). rewrite zlen_zset.
    destruct (Z.leb_spec o k), (Z.ltb_spec k (o + zlen out)); cbn [andb]; try reflexivity. rewrite znth_zset_ne by lia. reflexivity.
Qed.

(** The byte i of out has its top b bits and zeros below. *)
Definition filled (out : list Z) (i b : Z) : Prop := zlen out = n /\ 0 <= i < n /\ 0 <= b <= 8 /\ 0 <= znth out i < 256 /\ znth out i mod 2 ^ (8 - b) = 0.
(** out' is out but for the byte i, of which the top b bits are the same. *)
Definition kept (out out' : list Z) (i b : Z) : Prop :=
  zlen out' = zlen out /\ (forall k, k <> i -> znth out' k = znth out k) /\ znth out' i / 2 ^ (8 - b) = znth out i / 2 ^ (8 - b).
Definition spent (j bits : Z) : Prop := bits = 0 /\ inlen <= j.

Lemma inner_step (L : Z -> Prop) (S : Z -> Z -> Prop) i out j w bits b out' j' w' bits' b' go t : filled out i b ->
  pack_inner inp inlen lsb i (out, j, w, bits, b) = Ok ((out', j', w', bits', b'), go) t ->
  (filled out' i b' /\ kept out out' i b /\ b <= b' /\ (go = false -> b' = 8 \/ spent j' bits')) /\
  (L (o + i) -> (b < 8 -> S (o + i) (znth out' i)) ->
   inside L S (pack_inner_p o inp inlen lsb i (j, w, bits, b)) (zsplice mem0 o out) (fun x m => x = (j', w', bits', b', go) /\ m = zsplice mem0 o out')).
Proof.
  intros (HL & Hi & Hb & Hv & Hm) E. unfold pack_inner in E. apply ok_branch in E. destruct E as (t1 & E). unfold pack_inner_p.
  destruct (Z.ltb_spec b 8) as [Hb8|Hb8].
  2:{ injection E as <- <- <- <- <- <- _. split.
      - split; [repeat split; auto; lia|]. split; [repeat split; auto|]. split; [lia|]. intros _. left. lia.
      - intros _ _. split; reflexivity. }
  apply ok_bind in E. destruct E as (nb & t2 & t3 & E1 & E). apply ok_branch in E1. destruct E1 as (t4 & E1).
  assert (Enb : nb = if 8 - b <? bits then 8 - b else bits) by (destruct (8 - b <? bits); injection E1 as <- _; reflexivity). clear E1.
  apply ok_bind in E. destruct E as (m1 & t5 & t6 & Em1 & E). cbv zeta in E. apply ok_bind in E. destruct E as (w1 & t7 & t8 & Ew1 & E).
  apply ok_bind in E. destruct E as (ov & t9 & t10 & Eo & E). apply ok_bind in E. destruct E as (s1 & t11 & t12 & Es1 & E).
  apply ok_bind in E. destruct E as (o1 & t13 & t14 & Eo1 & E). apply ok_bind in E. destruct E as (out1 & t15 & t16 & Ewr & E).
  apply ok_bind in E. destruct E as (m2 & t17 & t18 & Em2 & E).
  destruct (ok_shl32 _ _ _ _ Em1) as (Hnb & _ & Em1'). destruct (ok_shl32 _ _ _ _ Es1) as (Hsh & _ & Es1').
  assert (Hnb8 : nb <= 8 - b) by (rewrite Enb; destruct (Z.ltb_spec (8 - b) bits); lia).
  assert (Eov : ov = znth out i).
  { unfold rd in Eo. destruct (_ && _); [|discriminate]. cbv zeta in Eo. destruct (_ <? 0); [discriminate|]. injection Eo as <- _. reflexivity. }
  assert (Eo1' : o1 = ov + s1) by (unfold i32 in Eo1; destruct (_ && _); [injection Eo1 as <- _; reflexivity|discriminate]).
  assert (Ewr' : out1 = zset out i (u8 o1)) by (unfold wr in Ewr; destruct (_ && _); [injection Ewr as <- _; reflexivity|discriminate]).
  set (mask := u16 (m1 - 1)) in *.
  assert (P8 : 2 ^ nb <= 256) by (change 256 with (2 ^ 8); apply Z.pow_le_mono_r; lia). assert (P0 : 0 < 2 ^ nb) by (apply Z.pow_pos_nonneg; lia).
  assert (Emask : mask = Z.ones nb) by (unfold mask, u16; rewrite Em1', Z.mul_1_l, Z.mod_small by lia; rewrite Z.ones_equiv; lia).
  set (tt := u8 (Z.land w1 mask)) in *.
  assert (Htt : 0 <= tt < 2 ^ nb).
  { unfold tt, u8. rewrite Emask, Z.land_ones by lia. pose proof (Z.mod_pos_bound w1 (2 ^ nb) P0). rewrite Z.mod_small by lia. lia. }
  destruct (byte_step (znth out i) tt b nb ltac:(lia) ltac:(lia) ltac:(lia) Hv Hm Htt) as (B1 & B2 & B3). cbv zeta in B1, B2, B3.
  assert (Eval : u8 o1 = znth out i + tt * 2 ^ (8 - b - nb)) by (unfold u8; rewrite Eo1', Eov, Es1'; apply Z.mod_small; lia).
  assert (Eb : u8 (b + nb) = b + nb) by (unfold u8; apply Z.mod_small; lia). rewrite Eb in *.
  assert (Hout : filled out1 i (b + nb) /\ kept out out1 i b /\ znth out1 i = u8 o1).
  { rewrite Ewr'. repeat split; rewrite ?zlen_zset; try lia; rewrite ?znth_zset_eq by lia; rewrite ?Eval; auto; try lia. intros k Hk. apply znth_zset_ne; lia. }
  destruct Hout as (F1 & F2 & F3).
  assert (Hend : (filled out' i b' /\ kept out out' i b /\ b <= b' /\ (go = false -> b' = 8 \/ spent j' bits')) /\ out' = out1 /\ 
    forall m, inside L S (m2 <~ loc (shl32 mask (u8 (bits - nb))) ;;
       (let w := u16 (Z.land w (Z.lnot m2)) in
        if u8 (bits - nb) =? 0 then
          if j <? inlen then w <~ loc (rd inp j) ;; Ret (j + 1, w, lsb, b + nb, true) else Ret (j, w, u8 (bits - nb), b + nb, false)
        else Ret (j, w, u8 (bits - nb), b + nb, true))) m (fun x m' => x = (j', w', bits', b', go) /\ m' = m)).
  { rewrite Em2. cbn [loc pbind]. cbv zeta. apply ok_branch in E. destruct E as (t19 & E). destruct (Z.eqb_spec (u8 (bits - nb)) 0) as [Hz|Hz].
    - apply ok_branch in E. destruct E as (t20 & E). destruct (Z.ltb_spec j inlen) as [Hj|Hj].
      + apply ok_bind in E. destruct E as (wv & t21 & t22 & Erd & E). injection E as <- <- <- <- <- <- _. rewrite Erd. cbn [loc pbind inside].
        split; [|auto]. split; [exact F1|]. split; [exact F2|]. split; [lia|discriminate].
      + injection E as <- <- <- <- <- <- _. cbn [inside]. split; [|auto]. split; [exact F1|]. split; [exact F2|]. split; [lia|]. intros _. right. split; lia.
    - injection E as <- <- <- <- <- <- _. cbn [inside]. split; [|auto]. split; [exact F1|]. split; [exact F2|]. split; [lia|discriminate]. }
  destruct Hend as (G & -> & K). split; [exact G|]. intros HLi HSi. rewrite <- Enb. cbv zeta. rewrite Em1. cbn [loc pbind]. fold mask. rewrite Ew1. cbn [loc pbind inside].
  destruct (splice_rd out i HL Hi) as (R1 & R2). split; [exact R1|]. split; [exact HLi|]. rewrite R2, <- Eov. fold tt. rewrite Es1. cbn [loc pbind]. rewrite Eo1. cbn [loc pbind inside].
  split; [exact R1|]. split; [rewrite <- F3; auto|]. rewrite splice_wr by assumption. rewrite <- Ewr'. rewrite Eb. apply K.
Qed.

Lemma inner_loop (L : Z -> Prop) (S : Z -> Z -> Prop) i : L (o + i) -> forall fuel out j w bits b out' j' w' bits' b' t, filled out i b ->
  loop fuel (pack_inner inp inlen lsb i) (out, j, w, bits, b) = Ok (out', j', w', bits', b') t ->
  (filled out' i b' /\ kept out out' i b /\ b <= b' /\ (b' = 8 \/ spent j' bits')) /\
  ((forall v, top_bits v (znth out' i) -> S (o + i) v) ->
   inside L S (ploop fuel (pack_inner_p o inp inlen lsb i) (j, w, bits, b)) (zsplice mem0 o out) (fun x m => x = (j', w', bits', b') /\ m = zsplice mem0 o out')).
Proof.
  intros HL. induction fuel as [|f IH]; intros out j w bits b out' j' w' bits' b' t F E; cbn [loop] in E; [discriminate|].
  apply ok_bind in E. destruct E as ([[[[[out1 j1] w1] bits1] b1] go] & t1 & t2 & E1 & E). apply ok_bind in E. destruct E as (y0 & t3 & t4 & _ & E).
  destruct (inner_step L S i _ _ _ _ _ _ _ _ _ _ _ _ F E1) as ((F1 & K1 & Hb & Hg) & H1). cbn [ploop]. destruct go.
  - destruct (IH _ _ _ _ _ _ _ _ _ _ _ F1 E) as ((F2 & K2 & Hb2 & Hg2) & H2). split.
    + split; [exact F2|]. split.
      { destruct K1 as (A1 & A2 & A3), K2 as (B1 & B2 & B3). split; [lia|]. split; [intros; rewrite B2, A2; auto|]. destruct F as (_ & _ & ? & _), F1 as (_ & _ & ? & _).
        apply (keep_trans _ (znth out1 i) _ b b1); [lia|lia|exact A3|exact B3]. }
      split; [lia|exact Hg2].
    + intros HS. apply inside_bind. eapply inside_mono; [apply H1; [exact HL|]|].
      * intros _. apply HS. destruct F1 as (_ & _ & F1b & _ & F1m), K2 as (_ & _ & K2). apply (top_of _ _ b1); auto.
      * intros x m (-> & ->). cbn [snd fst]. apply H2, HS.
  - injection E as <- <- <- <- <- _. split.
    + split; [exact F1|]. split; [exact K1|]. split; [lia|]. apply Hg. reflexivity.
    + intros HS. apply inside_bind. eapply inside_mono; [apply H1; [exact HL|]|].
      * intros _. apply HS. exists 0. split; [lia|]. change (2 ^ 0) with 1. rewrite Z.div_1_r. lia.
      * intros x m (-> & ->). cbn [snd fst inside]. auto.
Qed.

Definition ahead (out : list Z) (i j bits : Z) : Prop :=
  zlen out = n /\ 0 <= i /\ (forall k, 0 <= k < n -> 0 <= znth out k < 256) /\ ((forall k, i <= k < n -> znth out k = 0) \/ spent j bits).
Lemma outer_loop (L : Z -> Prop) (S : Z -> Z -> Prop) : (forall k, 0 <= k < n -> L (o + k)) -> forall fuel out i j w bits out' i' j' w' bits' t, ahead out i j bits ->
  loop fuel (pack_outer n inp inlen lsb) (out, i, j, w, bits) = Ok (out', i', j', w', bits') t ->
  (zlen out' = n /\ (forall k, 0 <= k < n -> 0 <= znth out' k < 256) /\ (forall k, k < i -> znth out' k = znth out k)) /\
  ((forall k v, 0 <= k < n -> top_bits v (znth out' k) -> S (o + k) v) ->
   inside L S (ploop fuel (pack_outer_p o n inp inlen lsb) (i, j, w, bits)) (zsplice mem0 o out) (fun _ m => m = zsplice mem0 o out')).
Proof.
  intros HL. induction fuel as [|f IH]; intros out i j w bits out' i' j' w' bits' t (A1 & A2 & A3 & A4) E; cbn [loop] in E; [discriminate|].
  apply ok_bind in E. destruct E as ([[[[[out1 i1] j1] w1] bits1] go] & t1 & t2 & E1 & E). apply ok_bind in E. destruct E as (y0 & t3 & t4 & _ & E).
  unfold pack_outer in E1. apply ok_branch in E1. destruct E1 as (t5 & E1). cbn [ploop]. unfold pack_outer_p at 1.
  destruct ((i <? n) && ((j <? inlen) || ((j =? inlen) && (0 <? bits)))) eqn:Ec.
  - apply ok_bind in E1. destruct E1 as ([[[[out2 j2] w2] bits2] b2] & t6 & t7 & E1 & E2).
    apply andb_prop in Ec. destruct Ec as (Ei & Ec). apply Z.ltb_lt in Ei.
    assert (Hz : forall k, i <= k < n -> znth out k = 0).
    { destruct A4 as [Hz|(S1 & S2)]; [exact Hz|]. apply orb_prop in Ec. destruct Ec as [Ec|Ec]; [apply Z.ltb_lt in Ec; lia|]. apply andb_prop in Ec. destruct Ec as (_ & Ec). apply Z.ltb_lt in Ec. lia. }
    assert (F0 : filled out i 0) by (split; [exact A1|]; split; [lia|]; split; [lia|]; rewrite Hz by lia; split; [lia|reflexivity]).
    destruct (inner_loop L S i (HL i ltac:(lia)) _ _ _ _ _ _ _ _ _ _ _ _ F0 E1) as ((F2 & (K1 & K2 & K3) & Hb & Hg) & H2).
    apply ok_branch in E2. destruct E2 as (t8 & E2).
    assert (A' : ahead out1 i1 j1 bits1 /\ out1 = out2 /\ j1 = j2 /\ w1 = w2 /\ bits1 = bits2 /\ go = true /\ i1 = (if b2 =? 8 then i + 1 else i)).
    { assert (R : forall k, 0 <= k < n -> 0 <= znth out2 k < 256).
      { intros k Hk. destruct (Z.eq_dec k i) as [->|Hne]; [apply F2|rewrite K2 by exact Hne; auto]. }
      destruct (Z.eqb_spec b2 8) as [->|Hne]; injection E2 as <- <- <- <- <- <- _; (split; [|auto 8]).
      - split; [lia|]. split; [lia|]. split; [exact R|]. left. intros k Hk. rewrite K2 by lia. apply Hz. lia.
      - split; [lia|]. split; [lia|]. split; [exact R|]. right. tauto. }
    destruct A' as (A' & -> & -> & -> & -> & -> & Ei1). destruct (IH _ _ _ _ _ _ _ _ _ _ _ A' E) as ((B1 & B2 & B3) & H3). split.
    + split; [exact B1|]. split; [exact B2|]. intros k Hk. rewrite B3 by (rewrite Ei1; destruct (b2 =? 8); lia). apply K2. lia.
    + intros HS.
      assert (Efin : znth out' i = znth out2 i).
      { destruct (Z.eqb_spec b2 8) as [->|Hne]; [apply B3; lia|]. destruct Hg as [Hg|(S1 & S2)]; [lia|].
        destruct f as [|f]; [discriminate|]. cbn [loop] in E. apply ok_bind in E. destruct E as ([[[[[o3 i3] j3] w3] b3] g3] & t9 & t10 & E3 & E).
        unfold pack_outer in E3. apply ok_branch in E3. destruct E3 as (t11 & E3).
        assert (Ef : (i1 <? n) && ((j2 <? inlen) || ((j2 =? inlen) && (0 <? bits2))) = false).
        { apply andb_false_iff. right. apply orb_false_iff. split; [apply Z.ltb_ge; lia|]. apply andb_false_iff. right. apply Z.ltb_ge. lia. }
        rewrite Ef in E3. injection E3 as <- <- <- <- <- <- _. apply ok_bind in E. destruct E as (y1 & t12 & t13 & _ & E). cbv iota in E. injection E as <- _ _ _ _ _. reflexivity. }
      apply inside_bind. apply inside_bind. eapply inside_mono; [apply H2|].
      * intros v Hv. apply HS; [lia|]. now rewrite Efin.
      * intros x m (-> & ->). rewrite Ei1 in H3. destruct (b2 =? 8); cbn [inside snd fst]; apply H3, HS.
  - injection E1 as <- <- <- <- <- <- _. cbv iota in E. injection E as <- _ _ _ _ _. split; [auto|]. intros HS. cbn [pbind inside snd fst]. reflexivity.
Qed.
End Pack.

(** ** The whole function *)
Lemma pack_inside (L : Z -> Prop) (S : Z -> Z -> Prop) mem o n inp inlen lsb old out t : 0 <= o -> 0 <= n -> o + n <= zlen mem -> zlen old = n ->
  frodo_pack old n inp inlen lsb = Ok out t -> (forall k, 0 <= k < n -> L (o + k)) -> (forall k v, 0 <= k < n -> top_bits v (znth out k) -> S (o + k) v) ->
  zlen out = n /\ inside L S (pack_to_p o n inp inlen lsb) mem (fun _ m => m = zsplice mem o out).
Proof.
  intros H1 H2 H3 Lo E HL HS. unfold frodo_pack in E. apply ok_bind in E. destruct E as (out0 & t1 & t2 & E0 & E).
  assert (E0' : out0 = zrep n 0).
  { unfold memset in E0. destruct (0 <=? n); [|discriminate]. unfold put in E0. destruct (_ && _); [|discriminate]. injection E0 as <- _.
    apply list_ext; [rewrite zlen_zsplice; rewrite ?zlen_zrep by lia; lia|]. rewrite zlen_zsplice by (rewrite ?zlen_zrep by lia; lia). intros k Hk.
    rewrite znth_zsplice by (rewrite ?zlen_zrep by lia; lia). rewrite zlen_zrep by lia. destruct (Z.leb_spec 0 k), (Z.ltb_spec k (0 + n)); try lia. cbn [andb]. f_equal. lia. }
  subst out0. apply ok_bind in E. destruct E as ([[[[out1 i1] j1] w1] b1] & t3 & t4 & E1 & E). injection E as <- _.
  assert (A : ahead n inlen (zrep n 0) 0 0 0).
  { split; [apply zlen_zrep; lia|]. split; [lia|]. split; [intros k Hk; rewrite znth_zrep by lia; lia|]. left. intros k Hk. apply znth_zrep; lia. }
  destruct (outer_loop mem inp o n inlen lsb H1 H3 L S HL _ _ _ _ _ _ _ _ _ _ _ _ A E1) as ((B1 & B2 & _) & H4). split; [exact B1|].
  unfold pack_to_p. apply inside_bind. apply inside_stn; rewrite ?zlen_zrep by lia; try lia.
  - intros i Hi. rewrite znth_zrep by lia. apply HS; [lia|]. apply top_zero. auto.
  - apply inside_bind. eapply inside_mono; [apply H4, HS|]. intros x m ->. reflexivity.
Qed.
