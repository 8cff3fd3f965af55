(** Property C22: block encryptions by several threads at once. *)
From Verif Require Import CSem Params Aes AesSpec AesProofs AesProofs2 PropAes PropMatrix PropKem Conc ConcProofs ConcAes.

(** One call of aes128_enc or aes256_enc: the key its schedule was made from, the block to
    encrypt, and the addresses of the block, the schedule and the place for the result. *)
Record job := { j_256 : bool; j_key : list Z; j_plain : list Z; j_in : Z; j_sch : Z; j_out : Z }.
Definition j_rounds (j : job) : Z := if j_256 j then 14 else 10.
Definition j_schlen (j : job) : Z := if j_256 j then 240 else 176.
Definition j_expanded (j : job) : list Z :=
  if j_256 j then concat (KeyExpansion 8 14 (j_key j)) else concat (KeyExpansion 4 10 (j_key j)).
Definition j_result (j : job) : list Z :=
  if j_256 j then AES256 (j_key j) (j_plain j) else AES128 (j_key j) (j_plain j).
(** The arguments of the call are in place. *)
Definition ready (mem : list Z) (j : job) : Prop :=
  bytestr (if j_256 j then 32 else 16) (j_key j) /\ bytestr 16 (j_plain j) /\
  holds mem (j_in j) 16 (j_plain j) /\
  holds mem (j_sch j) (j_schlen j) (j_expanded j) /\ j_sch j mod 16 = 0 /\
  region mem (j_out j) 16.
(** No call writes where another one reads or writes.  Blocks and schedules may be shared, and a
    call may encrypt in place. *)
Definition separate (js : list job) : Prop :=
  forall i k a b, i <> k -> nth_error js i = Some a -> nth_error js k = Some b ->
  disjoint (j_out a) 16 (j_in b) 16 /\ disjoint (j_out a) 16 (j_sch b) (j_schlen b) /\ disjoint (j_out a) 16 (j_out b) 16.

Definition ni_call (j : job) : prog unit := aes_enc_ni_p (j_rounds j) (j_in j) (j_sch j) (j_out j).
Definition c_call (j : job) : prog unit := aes_enc_c_p (j_rounds j) (j_in j) (j_sch j) (j_out j).

Lemma expanded_sched Nk Nr key : Nk = 4 /\ Nr = 10 \/ Nk = 8 /\ Nr = 14 -> zlen key = 4 * Nk -> bytes_ok key ->
  sched_upto Nk Nr key (16 * (Nr + 1)) (concat (KeyExpansion Nk Nr key)).
Proof.
  intros HN Hl Hb. destruct HN as [(-> & ->)|(-> & ->)].
  - destruct (C08_schedules AesC key (uninit 176)) as (H & _). specialize (H Hl Hb eq_refl).
    pose proof (load_schedule_c_wp 4 10 key (or_introl (conj eq_refl eq_refl)) Hl Hb (uninit 176) eq_refl) as W.
    apply wp_returns_ex in W. destruct W as (v & Hr & Hv). rewrite (returns_inj _ _ _ H Hr). exact Hv.
  - destruct (C08_schedules AesC key (uninit 240)) as (_ & H). specialize (H Hl Hb eq_refl).
    pose proof (load_schedule_c_wp 8 14 key (or_intror (conj eq_refl eq_refl)) Hl Hb (uninit 240) eq_refl) as W.
    apply wp_returns_ex in W. destruct W as (v & Hr & Hv). rewrite (returns_inj _ _ _ H Hr). exact Hv.
Qed.
Lemma job_sched mem j : ready mem j -> exists Nk, (Nk = 4 /\ j_rounds j = 10 \/ Nk = 8 /\ j_rounds j = 14) /\ zlen (j_key j) = 4 * Nk /\
  sched_upto Nk (j_rounds j) (j_key j) (16 * (j_rounds j + 1)) (j_expanded j) /\ j_schlen j = 16 * (j_rounds j + 1) /\
  j_result j = Cipher_spec (j_rounds j) (KeyExpansion Nk (j_rounds j) (j_key j)) (j_plain j).
Proof.
  intros ((Lk & Bk) & _). unfold j_rounds, j_expanded, j_result, j_schlen. destruct (j_256 j).
  - exists 8. split; [auto|]. split; [exact Lk|]. split; [apply expanded_sched; auto|]. split; reflexivity.
  - exists 4. split; [auto|]. split; [exact Lk|]. split; [apply expanded_sched; auto|]. split; reflexivity.
Qed.

Lemma ni_alone mem g j : ready mem j -> solo (ni_call j) mem g = (ret tt, zsplice mem (j_out j) (j_result j), g) /\ zlen (j_result j) = 16.
Proof.
  intros R. destruct (job_sched mem j R) as (Nk & HN & Lk & Sch & Ls & Er).
  destruct R as ((Lk' & Bk) & (Lp & Bp) & ((I1 & I2) & Ei) & ((S1 & S2) & Es) & Al & (O1 & O2)).
  assert (W := aes_enc_ni_wp Nk (j_rounds j) (j_key j) HN Lk Bk (j_plain j) (j_expanded j) (zslice mem (j_out j) 16) (conj Lp Bp) ltac:(apply zlen_zslice; lia) Sch).
  apply wp_returns_ex in W. destruct W as (v & (t & E) & ->). rewrite Er. unfold ni_call.
  assert (LE : zlen (j_expanded j) = j_schlen j) by (destruct Sch as (L & _); lia).
  apply (enc_ni_alone (j_rounds j) (j_in j) (j_sch j) (j_out j) (j_expanded j) mem g _ t); auto; try lia; rewrite ?LE; auto. now rewrite Ei.
Qed.
Lemma c_alone mem g j : ready mem j -> disjoint (j_out j) 16 (j_sch j) (j_schlen j) ->
  solo (c_call j) mem g = (ret tt, zsplice mem (j_out j) (j_result j), j_out j) /\ zlen (j_result j) = 16.
Proof.
  intros R D. destruct (job_sched mem j R) as (Nk & HN & Lk & Sch & Ls & Er).
  destruct R as ((Lk' & Bk) & (Lp & Bp) & ((I1 & I2) & Ei) & ((S1 & S2) & Es) & Al & (O1 & O2)).
  assert (W := aes_enc_c_wp Nk (j_rounds j) (j_key j) HN Lk Bk (j_plain j) (j_expanded j) (zslice mem (j_out j) 16) (conj Lp Bp) ltac:(apply zlen_zslice; lia) Sch).
  apply wp_returns_ex in W. destruct W as (v & (t & E) & ->). rewrite Er. unfold c_call.
  assert (LE : zlen (j_expanded j) = j_schlen j) by (destruct Sch as (L & _); lia).
  apply (enc_c_alone (j_rounds j) (j_in j) (j_sch j) (j_out j) (j_expanded j) mem g _ t); auto; try lia; rewrite ?LE; auto. now rewrite Ei.
Qed.

(** ** AES-NI: any number of threads, each encrypting its own block, under every schedule.  There
    is a number of turns, the same for all schedules, after which a call has returned; a call that
    has returned has done so normally and its output holds the AES encryption of its block; and
    nothing but the outputs is ever written. *)
Theorem C22_ni : forall js mem g,
  (forall i j, nth_error js i = Some j -> ready mem j) -> separate js ->
  exists turns : nat, forall sched,
  let w := exec sched (mkw mem g (map ni_call js)) in
  zlen (w_mem w) = zlen mem /\
  (forall a, (forall i j, nth_error js i = Some j -> ~ (j_out j <= a < j_out j + 16)) -> znth (w_mem w) a = znth mem a) /\
  forall i j, nth_error js i = Some j -> exists p, nth_error (w_thr w) i = Some p /\
    ((turns <= count_occ Nat.eq_dec sched i)%nat -> ended p = Some (ret tt)) /\
    (forall r, ended p = Some r -> r = ret tt /\ holds (w_mem w) (j_out j) 16 (j_result j)).
Proof.
  intros js mem g HR HS.
  set (W := fun i a => exists j, nth_error js i = Some j /\ j_out j <= a < j_out j + 16).
  set (R := fun i a => exists j, nth_error js i = Some j /\
    (j_out j <= a < j_out j + 16 \/ j_in j <= a < j_in j + 16 \/ j_sch j <= a < j_sch j + j_schlen j)).
  assert (HO : forall i p, nth_error (map ni_call js) i = Some p -> obeys (R i) (W i) p mem).
  { intros i p E. rewrite nth_error_map in E. destruct (nth_error js i) as [j|] eqn:Ej; [|discriminate]. injection E as <-.
    pose proof (HR i j Ej) as Rj. destruct (job_sched mem j Rj) as (Nk & HN & Lk & Sch & Ls & Er).
    destruct Rj as (_ & _ & ((I1 & I2) & _) & ((S1 & S2) & _) & _ & (O1 & O2)).
    unfold ni_call. apply obeys_ni; try lia; intros a Ha; exists j; (split; [exact Ej|]); rewrite ?Ls; lia. }
  assert (HD : forall i k a, i <> k -> W i a -> R k a -> False).
  { intros i k a Hn (x & Ex & Hx) (y & Ey & Hy). destruct (HS i k x y Hn Ex Ey) as (D1 & D2 & D3). unfold disjoint in *. lia. }
  exists (list_max (map (fun p => actions p mem g) (map ni_call js))). intros sched.
  destruct (interleave unit (map ni_call js) R W mem g HO HD sched) as (L & Out & Th). cbv zeta in *.
  split; [exact L|]. split.
  { intros a Ha. apply Out. intros i p E (j & Ej & Hj). exact (Ha i j Ej Hj). }
  intros i j Ej. assert (Ep : nth_error (map ni_call js) i = Some (ni_call j)) by (rewrite nth_error_map, Ej; reflexivity).
  destruct (Th i (ni_call j) Ep) as (p' & E' & Prog & Res). exists p'. split; [exact E'|].
  assert (Fin : forall r, ended p' = Some r -> r = ret tt /\ holds (w_mem (exec sched (mkw mem g (map ni_call js)))) (j_out j) 16 (j_result j)).
  { intros r Hr. destruct (Res r Hr) as (m' & Sm & Lm & Am). pose proof (HR i j Ej) as Rj.
    destruct (ni_alone mem g j Rj) as (Sa & Lr). rewrite Sa in Sm. injection Sm as <- <-. split; [reflexivity|].
    destruct Rj as (_ & _ & _ & _ & _ & (O1 & O2)). split; [split; lia|].
    apply list_ext; [rewrite zlen_zslice; lia|]. rewrite zlen_zslice by lia. intros a Ha. rewrite znth_zslice by lia.
    rewrite Am by (exists j; split; [exact Ej|lia]). rewrite znth_zsplice by lia. rewrite Lr.
    destruct (Z.leb_spec (j_out j) (j_out j + a)), (Z.ltb_spec (j_out j + a) (j_out j + 16)); try lia. cbn [andb]. f_equal; lia. }
  split; [|exact Fin].
  intros Ht. destruct (Prog) as (r & Hr).
  { eapply Nat.le_trans; [|exact Ht].
    assert (Hall : forall l : list nat, Forall (fun x => (x <= list_max l)%nat) l) by (intros l; apply list_max_le; lia).
    specialize (Hall (map (fun p => actions p mem g) (map ni_call js))). rewrite Forall_forall in Hall. apply Hall.
    apply in_map_iff. exists (ni_call j). split; [reflexivity|]. eapply nth_error_In, Ep. }
  destruct (Fin r Hr) as (-> & _). exact Hr.
Qed.
Print Assumptions C22_ni.

(** ** The portable implementation in one thread: whatever the global pointer held before, the
    output -- and no other byte -- receives the encryption of the block. *)
Theorem C22_portable_alone : forall mem g j, ready mem j -> disjoint (j_out j) 16 (j_sch j) (j_schlen j) ->
  solo (c_call j) mem g = (ret tt, stored mem (j_out j) (j_result j), j_out j) /\ zlen (j_result j) = 16.
Proof. intros mem g j R D. exact (c_alone mem g j R D). Qed.
Print Assumptions C22_portable_alone.
(** ... so a second call after the first is right as well. *)
Theorem C22_portable_sequence : forall mem g a b, ready mem a -> ready mem b -> separate [a; b] ->
  disjoint (j_out a) 16 (j_sch a) (j_schlen a) -> disjoint (j_out b) 16 (j_sch b) (j_schlen b) ->
  exists mem', solo (c_call a ~;; c_call b) mem g = (ret tt, mem', j_out b) /\
    holds mem' (j_out a) 16 (j_result a) /\ holds mem' (j_out b) 16 (j_result b).
Proof.
  intros mem g a b Ra Rb Sep Da Db. destruct (c_alone mem g a Ra Da) as (Sa & La).
  assert (D : disjoint (j_out a) 16 (j_in b) 16 /\ disjoint (j_out a) 16 (j_sch b) (j_schlen b) /\ disjoint (j_out a) 16 (j_out b) 16).
  { apply (Sep 0%nat 1%nat a b); [discriminate|reflexivity|reflexivity]. } destruct D as (D1 & D2 & D3). unfold disjoint in *.
  pose proof Ra as (_ & _ & _ & _ & _ & (O1 & O2)). destruct (job_sched mem b Rb) as (_ & _ & _ & _ & Lb & _).
  assert (Rb' : ready (zsplice mem (j_out a) (j_result a)) b).
  { destruct Rb as (H1 & H2 & ((I1 & I2) & Ei) & ((S1 & S2) & Es) & H5 & (P1 & P2)).
    assert (L : zlen (zsplice mem (j_out a) (j_result a)) = zlen mem) by (apply zlen_zsplice; lia).
    assert (LS : 0 <= j_schlen b) by (unfold j_schlen; destruct (j_256 b); lia).
    assert (Sl : forall o n, 0 <= o -> 0 <= n -> o + n <= zlen mem -> j_out a + 16 <= o \/ o + n <= j_out a ->
      zslice (zsplice mem (j_out a) (j_result a)) o n = zslice mem o n).
    { intros o n Ho Hn Hm Hd. apply list_ext; [rewrite !zlen_zslice; lia|]. rewrite zlen_zslice by lia. intros i Hi.
      rewrite !znth_zslice by lia. rewrite znth_zsplice by lia. rewrite La.
      destruct (Z.leb_spec (j_out a) (o + i)), (Z.ltb_spec (o + i) (j_out a + 16)); cbn [andb]; try reflexivity; lia. }
    split; [exact H1|]. split; [exact H2|]. split; [split; [split; lia|rewrite Sl by lia; exact Ei]|].
    split; [split; [split; lia|rewrite Sl by lia; exact Es]|]. split; [exact H5|split; lia]. }
  destruct (c_alone _ (j_out a) b Rb' Db) as (Sb & Lr).
  exists (zsplice (zsplice mem (j_out a) (j_result a)) (j_out b) (j_result b)).
  rewrite solo_bind, Sa. unfold ret at 1. rewrite Sb. split; [reflexivity|].
  pose proof Rb as (_ & _ & _ & _ & _ & (Q1 & Q2)).
  assert (L : zlen (zsplice mem (j_out a) (j_result a)) = zlen mem) by (apply zlen_zsplice; lia).
  assert (L2 : zlen (zsplice (zsplice mem (j_out a) (j_result a)) (j_out b) (j_result b)) = zlen mem) by (rewrite zlen_zsplice; lia).
  split; (split; [split; lia|]); (apply list_ext; [rewrite zlen_zslice; lia|]); rewrite zlen_zslice by lia; intros i Hi; rewrite znth_zslice by lia; rewrite znth_zsplice by lia; rewrite Lr.
  - destruct (Z.leb_spec (j_out b) (j_out a + i)), (Z.ltb_spec (j_out a + i) (j_out b + 16)); cbn [andb]; try lia;
    rewrite znth_zsplice by lia; rewrite La; destruct (Z.leb_spec (j_out a) (j_out a + i)), (Z.ltb_spec (j_out a + i) (j_out a + 16)); cbn [andb]; try lia; f_equal; lia.
  - destruct (Z.leb_spec (j_out b) (j_out b + i)), (Z.ltb_spec (j_out b + i) (j_out b + 16)); cbn [andb]; try lia. f_equal; lia.
Qed.
Print Assumptions C22_portable_sequence.

(** ** The portable implementation in two threads.  The first is stopped after it has copied its
    block and set the global pointer; the second runs to its end; then the first goes on, and
    encrypts the second one's output again.  Both return normally; both outputs are wrong: the
    first one's is its plaintext. *)
Definition ex_key : list Z := zseq 16.
Definition ex_plain (c : Z) : list Z := ztab 16 (fun i => (17 * i + c) mod 256).
Definition ex_job (c inp out : Z) : job :=
  {| j_256 := false; j_key := ex_key; j_plain := ex_plain c; j_in := inp; j_sch := 0; j_out := out |}.
Definition ex_jobs : list job := [ex_job 0 176 208; ex_job 1 192 224].
Definition ex_mem : list Z := concat (KeyExpansion 4 10 ex_key) ++ ex_plain 0 ++ ex_plain 1 ++ zrep 32 0.

Lemma ex_ready : forall i j, nth_error ex_jobs i = Some j -> ready ex_mem j.
Proof.
  assert (R : forall c inp out, (c = 0 /\ inp = 176 /\ out = 208) \/ (c = 1 /\ inp = 192 /\ out = 224) -> ready ex_mem (ex_job c inp out)).
  { intros c inp out [(-> & -> & ->)|(-> & -> & ->)];
    (split; [split; [reflexivity|apply Forall_forall; intros x Hx; vm_compute in Hx; lia]|];
     split; [split; [reflexivity|apply Forall_forall; intros x Hx; vm_compute in Hx; lia]|];
     split; [split; [split; [|vm_compute]; discriminate|vm_compute; reflexivity]|];
     split; [split; [split; [|vm_compute]; discriminate|vm_compute; reflexivity]|];
     split; [reflexivity|split; [|vm_compute]; discriminate]). }
  intros [|[|[|i]]] j E; cbn in E; try discriminate; injection E as <-; apply R; auto.
Qed.
Lemma ex_separate : separate ex_jobs.
Proof.
  intros [|[|[|i]]] [|[|[|k]]] a b Hn Ea Eb; cbn in Ea, Eb; try discriminate; try congruence;
  injection Ea as <-; injection Eb as <-; unfold disjoint; cbn; lia.
Qed.
(** The hypotheses of [C22_ni] and of the sequential theorems are met. *)
Example C22_hyps : (forall i j, nth_error ex_jobs i = Some j -> ready ex_mem j) /\ separate ex_jobs /\
  forall i j, nth_error ex_jobs i = Some j -> disjoint (j_out j) 16 (j_sch j) (j_schlen j).
Proof.
  split; [exact ex_ready|]. split; [exact ex_separate|].
  intros [|[|[|i]]] j E; cbn in E; try discriminate; injection E as <-; unfold disjoint; cbn; lia.
Qed.

Definition ex_sched : list nat := (repeat 0 33 ++ repeat 1 (32 * 100) ++ repeat 0 (32 * 100))%nat.
Definition ex_view (w : world unit) := (map ended (w_thr w), zlen (w_mem w), zslice (w_mem w) 208 16, zslice (w_mem w) 224 16).
Lemma ex_run : ex_view (exec ex_sched (mkw ex_mem 0 (map c_call ex_jobs))) =
  ([Some (ret tt); Some (ret tt)], 240, ex_plain 0,
   [20; 170; 161; 161; 212; 46; 137; 61; 200; 155; 184; 42; 4; 85; 184; 4]).
Proof. vm_compute. reflexivity. Qed.
Definition leqb (a b : list Z) : bool := if list_eq_dec Z.eq_dec a b then true else false.
Lemma leqb_ne a b : leqb a b = false -> a <> b.
Proof. unfold leqb. destruct (list_eq_dec Z.eq_dec a b); [discriminate|auto]. Qed.
Lemma ex_right : (leqb (j_result (ex_job 0 176 208)) (ex_plain 0)) = false /\ (leqb (j_result (ex_job 1 192 224)) [20; 170; 161; 161; 212; 46; 137; 61; 200; 155; 184; 42; 4; 85; 184; 4]) = false.
Proof. split; vm_compute; reflexivity. Qed.
Lemma ex_concl w : ex_view w = ([Some (ret tt); Some (ret tt)], 240, ex_plain 0,
   [20; 170; 161; 161; 212; 46; 137; 61; 200; 155; 184; 42; 4; 85; 184; 4]) ->
  map ended (w_thr w) = [Some (ret tt); Some (ret tt)] /\
  ~ holds (w_mem w) 208 16 (j_result (ex_job 0 176 208)) /\ ~ holds (w_mem w) 224 16 (j_result (ex_job 1 192 224)) /\
  holds (w_mem w) 208 16 (ex_plain 0).
Proof.
  destruct ex_right as (N0 & N1). apply leqb_ne in N0, N1. revert N0 N1. generalize (j_result (ex_job 0 176 208)) (j_result (ex_job 1 192 224)) (ex_plain 0).
  intros x y p N0 N1 E. unfold ex_view in E. injection E as E0 E1 E2 E3.
  split; [exact E0|]. split; [|split].
  - intros (_ & H). apply N0. rewrite <- H. exact E2.
  - intros (_ & H). apply N1. rewrite <- H. exact E3.
  - split; [split; lia|exact E2].
Qed.
Theorem C22_portable_refuted : exists js mem g sched a b,
  (forall i j, nth_error js i = Some j -> ready mem j) /\ separate js /\
  (forall i j, nth_error js i = Some j -> disjoint (j_out j) 16 (j_sch j) (j_schlen j)) /\
  js = [a; b] /\
  let w := exec sched (mkw mem g (map c_call js)) in
  map ended (w_thr w) = [Some (ret tt); Some (ret tt)] /\
  ~ holds (w_mem w) (j_out a) 16 (j_result a) /\ ~ holds (w_mem w) (j_out b) 16 (j_result b) /\
  holds (w_mem w) (j_out a) 16 (j_plain a).
Proof.
  exists ex_jobs, ex_mem, 0, ex_sched, (ex_job 0 176 208), (ex_job 1 192 224).
  destruct C22_hyps as (H1 & H2 & H3).
  split; [exact H1|]. split; [exact H2|]. split; [exact H3|]. split; [reflexivity|].
  exact (ex_concl (exec ex_sched (mkw ex_mem 0 (map c_call ex_jobs))) ex_run).
Qed.
Print Assumptions C22_portable_refuted.
