(** Property C54 with the random bytes of random.c: calls of the API by several threads on a machine
    with relaxed memory, all of which use the one [lock] of random.c (RelaxedLib.v). *)
From Verif Require Import CSem Params FrodoSpec Macrify PropMatrix Kem KemWp FrodoFacts PropKem Conc ConcProofs ConcKem ConcKemProofs PropConcKem
  Random ConcRandom ConcRandomProofs PropConcRandom ConcLib ConcLibProofs PropConcLib Relaxed PropRelaxed RelaxedRandom PropRelaxedRandom RelaxedLib RelaxedLibProofs.

(** The threads start: the calls cs, known V of the memory and T of [lock]. *)
Definition ybegin (C : config) (mem : list Z) (ms : list message) (V : view) (cs : list (Z * acall))
    (stk : list Z) (rqs : list (Z * Z)) (lms : list message) (T : Z) (fds : list Z) (pos : Z) : ylworld :=
  yl_start C (zlen mem) ms V cs (lk_start stk lms T fds pos rqs).
(** What the call of thread i has returned, and what the thread knows. *)
Definition yresult (w : ylworld) (i : nat) : option (res Z * view) :=
  match nth_error (yl_thr w) i with
  | Some (After p, v) => match ended p with Some r => Some (r, v) | None => None end
  | _ => None
  end.
(** What one who knew V knows after waiting for all threads. *)
Definition yjoined (V : view) (w : ylworld) : view := fun a => fold_right Z.max (V a) (map (fun x => snd x a) (yl_thr w)).

Lemma joined_same V cs R w thr : length (yl_thr w) = length cs -> same cs R (yl_thr w) thr -> forall a, joined V thr a = yjoined V w a.
Proof.
  intros L (L' & H) a. unfold joined, yjoined. rewrite <- L in L'. f_equal. f_equal. revert L' H. generalize (yl_thr w). intros l. revert R thr. induction l as [|[ph U] l IH]; intros R [|x thr] L' H; cbn in L'; try discriminate; [reflexivity|].
  cbn [map]. f_equal; [destruct (H 0%nat ph U x eq_refl eq_refl) as (X & _); cbv beta; cbn [snd]; rewrite <- X; reflexivity|]. apply (IH (fun i => R (Datatypes.S i))); [lia|]. intros i. exact (H (Datatypes.S i)).
Qed.

Section Run.
Variables (C : config) (mem : list Z) (ms : list message) (V : view) (cs : list (Z * acall)) (stk : list Z) (rqs : list (Z * Z))
  (lms : list message) (T lock : Z) (fds : list Z) (pos : Z) (st : Z -> Z).
Hypothesis HS : setting C mem cs stk rqs lock fds st.
Hypothesis HV : shows ms V mem.
Hypothesis HN : newest_is lms T lock.
Let HRq := set_req C mem cs stk rqs lock fds st HS.
Let HDs := set_dis C mem cs stk rqs lock fds st HS.
Let HLn := set_len C mem cs stk rqs lock fds st HS.
Notation ysim := (ysim C st (zlen mem) ms V cs stk pos rqs T).
Notation run := (yl_exec st rqs).

Lemma ysim_run sched : exists s1, ysim s1 (run sched (ybegin C mem ms V cs stk rqs lms T fds pos)).
Proof.
  pose proof HS as (_ & _ & _ & _ & _ & _ & Hq & Hd & _).
  refine (ysim_exec C st (zlen mem) ms V cs stk pos rqs T HRq HDs HLn sched [] _ _).
  apply ysim_start; [exact HLn|reflexivity|]. exists T, lock. apply lk_start_inv; assumption.
Qed.

(** Random bytes for the threads, given the state reached: those delivered, and any others. *)
Definition ychosen (w : ylworld) (i : nat) : list Z :=
  match nth_error (yl_thr w) i with Some (After _, _) => ybuffer rqs w i
  | _ => match nth_error cs i with Some mc => zrep (need C (snd mc)) 0 | None => [] end end.
Lemma yagrees_chosen w : yagrees cs rqs w (ychosen w).
Proof. intros i mc p U Hi Ha Hp. unfold ychosen. rewrite Hp. reflexivity. Qed.

(** Where the bytes came from. *)
Definition ysources (w : ylworld) (src : nat -> Z -> Z) : Prop :=
  (forall i a n, nth_error rqs i = Some (a, n) -> lk_returned (yl_rng w) i 0 ->
       forall k, 0 <= k < n -> znth (lk_mem (yl_rng w)) (a + k) = st (src i k) /\ pos <= src i k < lk_pos (yl_rng w)) /\
  (forall i a n, nth_error rqs i = Some (a, n) -> lk_returned (yl_rng w) i 0 ->
       forall k l, 0 <= k < l -> l < n -> src i k < src i l) /\
  (forall i j a n b m, i <> j -> nth_error rqs i = Some (a, n) -> nth_error rqs j = Some (b, m) ->
       lk_returned (yl_rng w) i 0 -> lk_returned (yl_rng w) j 0 ->
       forall k l, 0 <= k < n -> 0 <= l < m -> src i k <> src j l).
Lemma yhave_sources s1 w : ysim s1 w -> zlen (lk_mem (yl_rng w)) = zlen stk /\ exists src, ysources w src.
Proof.
  intros ((T1 & nv & (_ & _ & Q & _)) & _). destruct (inv_facts st stk pos rqs _ Q) as (_ & _ & (src & S1 & S2 & S3) & F4 & _).
  split; [exact F4|]. exists src. split; [|split].
  - intros i a n Hr Hret. apply (S1 i a n Hr). apply (lk_returned_iff (yl_rng w) nv), Hret.
  - intros i a n Hr Hret. apply (S2 i a n Hr). apply (lk_returned_iff (yl_rng w) nv), Hret.
  - intros i j a n b m Hij Hi Hj R1 R2. apply (S3 i j a n b m Hij Hi Hj); apply (lk_returned_iff (yl_rng w) nv); assumption.
Qed.
Lemma ygot s1 w src i me c p U : ysim s1 w -> ysources w src -> nth_error cs i = Some (me, c) -> nth_error (yl_thr w) i = Some (After p, U) ->
  ybuffer rqs w i = ztab (need C c) (fun k => st (src i k)) /\ (asks c = true -> lk_returned (yl_rng w) i 0).
Proof.
  intros HM Hsrc Hi Hp. destruct (yhave_sources s1 w HM) as (LM & _). destruct HM as (_ & _ & _ & Hph & _).
  destruct (Hph i _ Hi) as (ph & V1 & c0 & U0 & rq & Q1 & Q2 & Q3 & Q4). rewrite Hp in Q1. injection Q1 as <- <-. destruct rq as [a n].
  pose proof (set_need C mem cs stk rqs lock fds st HS i a n me c Q3 Hi) as En. destruct (HRq i a n Q3) as (Hn & Ha & Hb). cbn [ph_ok snd] in Q4. subst n.
  assert (RET : asks c = true -> lk_returned (yl_rng w) i 0) by (intros X; rewrite X in Q4; exists c0, U0; auto).
  split; [|exact RET]. unfold ybuffer. rewrite Q3. apply list_ext; [rewrite zlen_zslice, zlen_ztab by lia; reflexivity|].
  rewrite zlen_zslice by lia. intros k Hk. rewrite znth_zslice, znth_ztab by lia.
  destruct Hsrc as (A1 & _). apply (A1 i a _ Q3); [|exact Hk]. apply RET. destruct c; try reflexivity. cbn in Hk. lia.
Qed.
Lemma ychosen_ok s1 w : ysim s1 w -> fits C cs (ychosen w).
Proof.
  intros HM i me c Hi. destruct (yhave_sources s1 w HM) as (LM & src & Hsrc). destruct (has_req C mem cs stk rqs lock fds st HS i me c Hi) as (a & Ha). destruct (HRq i _ _ Ha) as (Hn & _).
  assert (D : zlen (zrep (need C c) 0) = need C c /\ bytes_ok (zrep (need C c) 0)).
  { split; [apply zlen_zrep; lia|]. apply inrange_zrep0; lia. }
  unfold ychosen. rewrite Hi. destruct (nth_error (yl_thr w) i) as [[[| |p] U]|] eqn:Ep; try exact D.
  destruct (ygot s1 w src i me c p U HM Hsrc Hi Ep) as (-> & _). split; [apply zlen_ztab; lia|].
  apply inrange_ztab. intros. pose proof HS as (_ & _ & _ & _ & _ & _ & _ & _ & Hst). apply Hst.
Qed.
(** The run seen from the API's memory, with the bytes given in advance. *)
Lemma first_started R : first C (zlen mem) ms V cs R = started C (zlen mem) ms V (calls_of R cs).
Proof. unfold first, started. destruct (programs_map C R cs) as (-> & _). rewrite map_map. reflexivity. Qed.
Lemma yready R : fits C cs R -> ready C mem (calls_of R cs).
Proof. exact (calls_fit C mem cs stk rqs lock fds st HS R). Qed.
Lemma length_calls R : length (calls_of R cs) = length cs.
Proof.
  destruct (programs_map C R cs) as (E & _). apply (f_equal (@length _)) in E. rewrite map_length in E. rewrite <- E. unfold programs. clear. generalize 0%nat. induction cs; intros j; cbn; auto.
Qed.
End Run.

(** ** Any number of threads, each making one call of the API, started by a thread for which the memory
    is mem and which knows of the newest value of [lock]; every schedule, every choice of the messages
    that the loads take and of the times of the stores, every behaviour of the operating system (open()
    fails, read() fails or is short); every parameter set and every build without the portable AES in use.
    - A call that has ended has returned 0, and everybody who knows what its thread knew at its end (who has
      waited for it) reads in its output buffers the outputs that FrodoKEM gives for random bytes of the
      device: bytes of its stream at increasing positions.
    - No byte of the stream is used twice, neither by two calls nor within one.
    - For one who knows what all threads know the memory is again one memory: with those outputs of the
      calls that have ended, and with the old bytes where no call writes. *)
Theorem C54_library : forall C mem ms V cs stk rqs lms T lock fds pos st,
  setting C mem cs stk rqs lock fds st -> shows ms V mem -> newest_is lms T lock ->
  forall sched, let w := yl_exec st rqs sched (ybegin C mem ms V cs stk rqs lms T fds pos) in
  exists src : nat -> Z -> Z,
    (forall i me c r v, nth_error cs i = Some (me, c) -> yresult w i = Some (r, v) -> r = ret 0 /\
       (forall k, 0 <= k < need C c -> pos <= src i k < lk_pos (yl_rng w)) /\
       (forall k l, 0 <= k < l -> l < need C c -> src i k < src i l) /\
       forall a x, In (a, x) (outputs C mem c (ztab (need C c) (fun k => st (src i k)))) -> forall k, 0 <= k < zlen x ->
         readable (yl_msgs w) v (a + k) (znth x k) /\
         forall U y, (forall b, v b <= U b) -> readable (yl_msgs w) U (a + k) y -> y = znth x k) /\
    (forall i j me me' c d r s, i <> j -> nth_error cs i = Some (me, c) -> nth_error cs j = Some (me', d) ->
       yresult w i = Some r -> yresult w j = Some s ->
       forall k l, 0 <= k < need C c -> 0 <= l < need C d -> src i k <> src j l) /\
    exists mem', zlen mem' = zlen mem /\ shows (yl_msgs w) (yjoined V w) mem' /\
      (forall a, 0 <= a < zlen mem -> (forall i me c, nth_error cs i = Some (me, c) -> ~ within (writes C (call_with [] c)) a) -> znth mem' a = znth mem a) /\
      forall i me c r v, nth_error cs i = Some (me, c) -> yresult w i = Some (r, v) ->
        forall a x, In (a, x) (outputs C mem c (ztab (need C c) (fun k => st (src i k)))) -> holds mem' a (zlen x) x.
Proof.
  intros C mem ms V cs stk rqs lms T lock fds pos st HS HV HN sched w. destruct (ysim_run C mem ms V cs stk rqs lms T lock fds pos st HS HN sched) as (s1 & HM). fold w in HM.
  pose proof (ychosen_ok C mem ms V cs stk rqs T lock fds pos st HS s1 w HM) as HF. pose proof (yready C mem cs stk rqs lock fds st HS _ HF) as HR.
  pose proof HM as (_ & Lx & El & _ & Hk). destruct (Hk _ (yagrees_chosen C cs rqs w)) as (thr & E & Hsm). set (R := ychosen C cs rqs w) in *.
  rewrite first_started in E. destruct (programs_map C R cs) as (_ & N).
  pose proof HS as (Va & Hb & Hre & Hpl & _). destruct (C54_threads C mem ms V (calls_of R cs) Va Hb Hre HV HR s1) as (Th & (mem' & L' & S' & Out & Own) & _). cbv zeta in *.
  rewrite E in *. cbn [rx_thr rx_msgs] in *. destruct (yhave_sources C mem ms V cs stk rqs T pos st s1 w HM) as (_ & src & Hsrc). exists src.
  assert (AFT : forall i r v, yresult w i = Some (r, v) -> exists p, nth_error (yl_thr w) i = Some (After p, v) /\ ended p = Some r).
  { intros i r v. unfold yresult. destruct (nth_error (yl_thr w) i) as [[[| |p] u]|]; try discriminate. destruct (ended p) as [r'|] eqn:Ee; [|discriminate]. intros X. injection X as <- <-. eauto. }
  assert (RET : forall i me c r k, nth_error cs i = Some (me, c) -> yresult w i = Some r -> 0 <= k < need C c -> lk_returned (yl_rng w) i 0).
  { intros i me c [r v] k Hi Hr Hk'. destruct (AFT i r v Hr) as (p & Hp & _).
    destruct (ygot C mem ms V cs stk rqs T lock fds pos st HS s1 w src i me c p v HM Hsrc Hi Hp) as (_ & G). apply G. destruct c; try reflexivity. cbn in Hk'. lia. }
  assert (GOT : forall i me c r v, nth_error cs i = Some (me, c) -> yresult w i = Some (r, v) ->
    R i = ztab (need C c) (fun k => st (src i k)) /\ nth_error (calls_of R cs) i = Some (me, call_with (R i) c) /\
    prescribed C mem (call_with (R i) c) (outputs C mem c (R i)) /\ exists p, nth_error thr i = Some (p, v) /\ ended p = Some r).
  { intros i me c r v Hi Hr. destruct (AFT i r v Hr) as (p & Hp & He). split; [|split; [|split]].
    - unfold R, ychosen. rewrite Hp. exact (proj1 (ygot C mem ms V cs stk rqs T lock fds pos st HS s1 w src i me c p v HM Hsrc Hi Hp)).
    - rewrite N, Hi. reflexivity.
    - destruct (HF i me c Hi) as (X1 & X2). apply placed_prescribed; auto. exact (Hpl i me c Hi).
    - destruct Hsm as (L2 & Hrel). destruct (nth_error thr i) as [[q u]|] eqn:Eq.
      + destruct (Hrel i _ _ _ Hp Eq) as (Y1 & Y2). cbn in Y1, Y2. subst. eauto.
      + apply nth_error_None in Eq. assert (i < length cs)%nat by (apply nth_error_Some; congruence). lia. }
  split; [|split].
  - intros i me c r v Hi Hr. destruct (GOT i me c r v Hi Hr) as (ER & Hi' & Hpr & p & Hp & He). destruct (has_req C mem cs stk rqs lock fds st HS i me c Hi) as (a0 & Ha0).
    destruct (Th i _ _ Hi') as (p' & v' & Hp' & Hres). rewrite Hp in Hp'. injection Hp' as <- <-. destruct (Hres r He) as (-> & Hout). split; [reflexivity|].
    pose proof Hsrc as (A1 & A2 & _). split; [|split].
    + intros k Hk'. exact (proj2 (A1 i a0 _ Ha0 (RET i me c _ k Hi Hr Hk') k Hk')).
    + intros k l H1 H2. apply (A2 i a0 _ Ha0 (RET i me c _ k Hi Hr ltac:(lia)) k l H1 H2).
    + intros a x Hin. apply (Hout _ Hpr). rewrite ER. exact Hin.
  - intros i j me me' c d r s Hij Hi Hj Hri Hrj k l Hk' Hl. destruct (has_req C mem cs stk rqs lock fds st HS i me c Hi) as (a & Ha). destruct (has_req C mem cs stk rqs lock fds st HS j me' d Hj) as (b & Hb').
    destruct Hsrc as (_ & _ & A3). apply (A3 i j a _ b _ Hij Ha Hb' (RET i me c r k Hi Hri Hk') (RET j me' d s l Hj Hrj Hl) k l Hk' Hl).
  - exists mem'. split; [exact L'|]. split.
    + intros a Ha. rewrite <- (joined_same V cs R w thr Lx Hsm a). exact (S' a Ha).
    + split.
      * intros a Ha HNo. apply Out; [exact Ha|]. intros i me c Hi. rewrite N in Hi. destruct (nth_error cs i) as [[me0 c0]|] eqn:Ei; [|discriminate]. injection Hi as <- <-. cbn [fst snd].
        destruct (writes_with C (R i) c0) as (-> & _). exact (HNo i me0 c0 Ei).
      * intros i me c r v Hi Hr a x Hin. destruct (GOT i me c r v Hi Hr) as (ER & Hi' & Hpr & p & Hp & He). apply (Own i _ _ p v r Hi' Hp He _ Hpr). rewrite ER. exact Hin.
Qed.
Print Assumptions C54_library.

(** ** Progress *)
Definition good : answer := {| an_open := Some 3%nat; an_read := RGive 1 |}.
Lemma good_ok : good_answer good.
Proof. split; [discriminate|]. exists 1. split; [reflexivity|lia]. Qed.
Lemma set_call_id l i c : nth_error l i = Some c -> set_call l i c = l.
Proof. revert i; induction l as [|y l IH]; intros [|i] H; cbn in *; try discriminate; [injection H as ->; reflexivity|f_equal; auto]. Qed.
Lemma turns_one i j a s : turns i ((j, a) :: s) = ((if Nat.eq_dec j i then 1 else 0) + turns i s)%nat.
Proof. unfold turns. cbn [map fst count_occ]. destruct (Nat.eq_dec j i); lia. Qed.
Lemma turns_both i s1 s2 : turns i (s1 ++ s2) = (turns i s1 + turns i s2)%nat.
Proof. unfold turns. rewrite map_app, count_occ_app. reflexivity. Qed.
(** A call without a turn does not change. *)
Lemma no_turn st s : forall w j, turns j s = 0%nat -> nth_error (rw_calls (rexec st s w)) j = nth_error (rw_calls w) j.
Proof.
  induction s as [|[i a] s IH]; intros w j Ht; [reflexivity|]. rewrite turns_one in Ht. destruct (Nat.eq_dec i j) as [->|Hn]; [lia|].
  change (rexec st ((i, a) :: s) w) with (rexec st s (rturn st (i, a) w)). rewrite IH by lia. rewrite nth_turn. destruct (nth_error (rw_calls w) j); [|reflexivity].
  destruct (Nat.eq_dec i j); [contradiction|reflexivity].
Qed.
(** K turns for each of the calls A. *)
Definition each (A : list nat) (K : nat) : list (nat * answer) := concat (repeat (map (fun i => (i, good)) A) K).
Lemma each_in A K i a : In (i, a) (each A K) -> In i A /\ a = good.
Proof.
  unfold each. intros H. apply in_concat in H as (l & Hl & H). apply repeat_spec in Hl. subst l. apply in_map_iff in H as (j & E & Hj). injection E as <- <-. auto.
Qed.
Lemma each_turns A K i : In i A -> (K <= turns i (each A K))%nat.
Proof.
  intros H. induction K as [|K IH]; [lia|]. unfold each in *. cbn [repeat concat]. rewrite turns_both.
  assert (1 <= turns i (map (fun i => (i, good)) A))%nat; [|lia]. unfold turns. apply count_occ_In. rewrite map_map, map_id. exact H.
Qed.
Lemma each_none A K i : ~ In i A -> turns i (each A K) = 0%nat.
Proof.
  intros H. unfold turns. apply count_occ_not_In. intros X. apply in_map_iff in X as ([j a] & E & X). cbn in E. subst j. apply each_in in X. tauto.
Qed.
Lemma each_good A K : good_sched (each A K).
Proof. intros [i a] H. apply each_in in H as (_ & ->). exact good_ok. Qed.

Section Live.
Variables (C : config) (mem : list Z) (ms : list message) (V : view) (cs : list (Z * acall)) (stk : list Z) (rqs : list (Z * Z))
  (T lock : Z) (fds : list Z) (pos : Z) (st : Z -> Z).
Hypothesis HS : setting C mem cs stk rqs lock fds st.
Hypothesis HV : shows ms V mem.
Let HRq := set_req C mem cs stk rqs lock fds st HS.
Let HDs := set_dis C mem cs stk rqs lock fds st HS.
Let HLn := set_len C mem cs stk rqs lock fds st HS.
Notation ysim := (ysim C st (zlen mem) ms V cs stk pos rqs T).
Notation run := (yl_exec st rqs).
Let turn_sim := ysim_turn C st (zlen mem) ms V cs stk pos rqs T HRq HDs HLn.
Let exec_sim := ysim_exec C st (zlen mem) ms V cs stk pos rqs T HRq HDs HLn.
Lemma yrun_app s1 s2 w : run (s1 ++ s2) w = run s2 (run s1 w).
Proof. apply fold_left_app. Qed.

Definition yasking (w : ylworld) (i : nat) : Prop := exists k U, nth_error (yl_thr w) i = Some (Asking k, U).
Definition yafter (w : ylworld) (i : nat) : Prop := exists p U, nth_error (yl_thr w) i = Some (After p, U).

(** The run seen from the API's memory. *)
Lemma yseen s1 w R : ysim s1 w -> yagrees cs rqs w R -> fits C cs R -> exists thr,
  rx_exec s1 (started C (zlen mem) ms V (calls_of R cs)) = mkrx (zlen mem) (yl_msgs w) thr /\ same cs R (yl_thr w) thr /\ ready C mem (calls_of R cs).
Proof.
  intros (_ & _ & _ & _ & Hk) HA HF. destruct (Hk R HA) as (thr & E & Hs). rewrite first_started in E. exists thr. split; [exact E|]. split; [exact Hs|]. exact (yready C mem cs stk rqs lock fds st HS R HF).
Qed.
Lemma ynofault s1 w i k e U : ysim s1 w -> nth_error (yl_thr w) i <> Some (Before (Fault e) k, U).
Proof.
  intros HM Hp. pose proof (ychosen_ok C mem ms V cs stk rqs T lock fds pos st HS s1 w HM) as HF.
  destruct (yseen s1 w _ HM (yagrees_chosen C cs rqs w) HF) as (thr & E & (L & Hs) & HR). set (R := ychosen C cs rqs w) in *.
  pose proof HS as (Va & Hb & Hre & _). destruct (C54_threads C mem ms V _ Va Hb Hre HV HR s1) as (Th & _). cbv zeta in Th. rewrite E in Th. cbn [rx_thr rx_msgs] in Th.
  assert (Hi : (i < length cs)%nat) by (destruct HM as (_ & L' & _); rewrite <- L'; apply nth_error_Some; congruence).
  destruct (nth_error cs i) as [[me c]|] eqn:Ec; [|apply nth_error_None in Ec; lia]. destruct (programs_map C R cs) as (_ & N).
  destruct (Th i me (call_with (R i) c)) as (p & v & Hp' & Hres); [rewrite N, Ec; reflexivity|]. destruct (Hs i _ _ _ Hp Hp') as (_ & X). cbn in X. subst p.
  destruct (Hres (Err e) eq_refl) as (X & _). discriminate.
Qed.

(** Stage 1: every thread comes to its request. *)
Lemma before_goes s1 w i a kk k U : ysim s1 w -> nth_error (yl_thr w) i = Some (Before (Ld a kk) k, U) ->
  exists t v U', nth_error (yl_thr (yl_turn st rqs (i, good, t) w)) i = Some (Before (kk v) k, U').
Proof.
  intros HM Hp. pose proof (ychosen_ok C mem ms V cs stk rqs T lock fds pos st HS s1 w HM) as HF.
  destruct (yseen s1 w _ HM (yagrees_chosen C cs rqs w) HF) as (thr & E & (L & Hs) & HR). set (R := ychosen C cs rqs w) in *.
  assert (Hi : (i < length cs)%nat) by (destruct HM as (_ & L' & _); rewrite <- L'; apply nth_error_Some; congruence).
  destruct (nth_error thr i) as [[p v]|] eqn:Ei; [|apply nth_error_None in Ei; lia]. destruct (Hs i _ _ _ Hp Ei) as (X & Y). cbn in X, Y. subst p v.
  pose proof HS as (Va & Hb & Hre & _). assert (Hi' : (i < length (calls_of R cs))%nat) by (rewrite (length_calls C); exact Hi).
  destruct (next_turn C mem ms V _ s1 i (Ld a (fun v => pbind (kk v) (fun x => k x (R i)))) U Va Hb Hre HV HR Hi') as (t & Ht); [rewrite E; exact Ei|reflexivity|].
  rewrite E in Ht. exists t. destruct (turn_sim s1 w (i, good, t) HM) as (s1' & HM'). pose proof HM as (_ & _ & El & _).
  pose proof (ynofault s1' _ i k UB_oob U HM') as NF.
  unfold yl_turn in *. rewrite Hp in *. unfold access, rx_turn in *. cbn [nth_error rx_thr rx_msgs rx_len] in *. rewrite Ei in Ht. rewrite El in *.
  destruct ((0 <=? a) && (a <? zlen mem)).
  - unfold rx_load in *. destruct (U a <=? t); [|congruence]. destruct (lookup (yl_msgs w) a t) as [v|]; [|congruence]. cbn [rx_thr rx_msgs set_rx yl_thr].
    exists v. eexists. apply (nth_yl_eq _ _ _ _ Hp).
  - exfalso. apply NF. cbn [rx_thr rx_msgs set_rx yl_thr]. apply (nth_yl_eq _ _ _ _ Hp).
Qed.
Lemma turn_others w i a t j : j <> i -> nth_error (yl_thr (yl_turn st rqs (i, a, t) w)) j = nth_error (yl_thr w) j.
Proof.
  intros Hn. unfold yl_turn. destruct (nth_error (yl_thr w) i) as [[[p k|k|p] U]|]; [| | |reflexivity].
  - destruct p; try (destruct (access _ _ _ _ _) as [[? ?] ?]); cbn [yl_thr]; apply nth_yl_ne; congruence.
  - destruct (nth_error (lk_calls (yl_rng w)) i) as [[c W]|]; [|reflexivity]. destruct (nth_error rqs i) as [[b n]|]; [|reflexivity].
    destruct (rc_pc c); cbn [yl_thr]; try reflexivity; apply nth_yl_ne; congruence.
  - destruct (access _ _ _ _ _) as [[? ?] ?]. cbn [yl_thr]. apply nth_yl_ne. congruence.
Qed.
Lemma reach_request_one m : forall s1 w i p k U, ysim s1 w -> nth_error (yl_thr w) i = Some (Before p k, U) -> short m p ->
  exists more, yasking (run more w) i /\ forall j, j <> i -> nth_error (yl_thr (run more w)) j = nth_error (yl_thr w) j.
Proof.
  assert (RET : forall w i x k U, nth_error (yl_thr w) i = Some (Before (Ret x) k, U) ->
    exists more, yasking (run more w) i /\ forall j, j <> i -> nth_error (yl_thr (run more w)) j = nth_error (yl_thr w) j).
  { intros w i x k U Hp. exists [(i, good, 0)]. cbn [yl_exec fold_left]. split; [|intros j Hj; apply turn_others; exact Hj].
    unfold yasking, yl_turn. rewrite Hp. cbn [yl_thr]. rewrite (nth_yl_eq _ _ _ _ Hp). eauto. }
  induction m as [|m IH]; intros s1 w i p k U HM Hp Sp; inversion Sp; subst; try (eapply RET; exact Hp); try (destruct (ynofault s1 w i k e U HM Hp)).
  destruct (before_goes s1 w i a k0 k U HM Hp) as (t & v & U' & H'). destruct (turn_sim s1 w (i, good, t) HM) as (s1' & HM').
  destruct (IH s1' _ i (k0 v) k U' HM' H' (H0 v)) as (more & A1 & A2). exists ((i, good, t) :: more). change (run ((i, good, t) :: more) w) with (run more (yl_turn st rqs (i, good, t) w)).
  split; [exact A1|]. intros j Hj. rewrite A2 by exact Hj. apply turn_others. exact Hj.
Qed.
Lemma reach_requests n : forall s1 w, ysim s1 w -> exists more, forall i, (i < n)%nat -> (i < length cs)%nat -> yasking (run more w) i \/ yafter (run more w) i.
Proof.
  induction n as [|n IH]; intros s1 w HM; [exists []; lia|]. destruct (IH s1 w HM) as (m1 & H1). destruct (exec_sim m1 s1 w HM) as (s1' & HM').
  destruct (lt_dec n (length cs)) as [Hn|Hn]; [|exists m1; intros i Hi Hl; apply H1; lia].
  destruct (nth_error (yl_thr (run m1 w)) n) as [[[p k|k|p] U]|] eqn:En.
  - pose proof HM' as (_ & _ & _ & Hph & _). destruct (nth_error cs n) as [mc|] eqn:Ec; [|apply nth_error_None in Ec; lia].
    destruct (Hph n mc Ec) as (ph & V1 & c & U1 & rq & Q1 & _ & _ & Q4). rewrite En in Q1. injection Q1 as <- <-. destruct Q4 as (_ & _ & m & Sp).
    destruct (reach_request_one m s1' _ n p k U HM' En Sp) as (m2 & A1 & A2). exists (m1 ++ m2). rewrite yrun_app. intros i Hi Hl. destruct (Nat.eq_dec i n) as [->|Hne]; [left; exact A1|].
    unfold yasking, yafter in *. rewrite A2 by exact Hne. apply H1; lia.
  - exists m1. intros i Hi Hl. destruct (Nat.eq_dec i n) as [->|]; [left; exists k, U; exact En|apply H1; lia].
  - exists m1. intros i Hi Hl. destruct (Nat.eq_dec i n) as [->|]; [right; exists p, U; exact En|apply H1; lia].
  - apply nth_error_None in En. destruct HM' as (_ & L & _). lia.
Qed.

(** Stage 2: a schedule of random.c, by threads that are asking. *)
Lemma rng_steps s : forall s1 w T1 nv, ysim s1 w -> lkinv st stk pos rqs T T1 nv (yl_rng w) -> (forall i a, In (i, a) s -> yasking w i) ->
  exists more T2 nv2, yl_thr (run more w) = yl_thr w /\ lkinv st stk pos rqs T T2 nv2 (yl_rng (run more w)) /\
    proj (yl_rng (run more w)) nv2 = rexec st s (proj (yl_rng w) nv).
Proof.
  induction s as [|[i a] s IH]; intros s1 w T1 nv HM HI HA; [exists [], T1, nv; auto|].
  destruct (HA i a (or_introl eq_refl)) as (k & U & Hp). assert (HA' : forall j b, In (j, b) s -> yasking w j) by (intros j b Hj; apply (HA j b); right; exact Hj).
  assert (Hi : (i < length cs)%nat) by (destruct HM as (_ & L' & _); rewrite <- L'; apply nth_error_Some; congruence).
  destruct (nth_error cs i) as [mc|] eqn:Ec; [|apply nth_error_None in Ec; lia]. pose proof HM as (_ & _ & _ & Hph & _).
  destruct (Hph i mc Ec) as (ph & V1 & c & U1 & [b n] & Q1 & Q2 & Q3 & Q4).
  assert (Q2' : nth_error (rw_calls (proj (yl_rng w) nv)) i = Some c) by (apply nth_fst; eauto).
  change (rexec st ((i, a) :: s) (proj (yl_rng w) nv)) with (rexec st s (rturn st (i, a) (proj (yl_rng w) nv))).
  assert (STAY : (exists v, rc_pc c = PRet v) -> exists more T2 nv2, yl_thr (run more w) = yl_thr w /\ lkinv st stk pos rqs T T2 nv2 (yl_rng (run more w)) /\
    proj (yl_rng (run more w)) nv2 = rexec st s (rturn st (i, a) (proj (yl_rng w) nv))).
  { intros (v & Ev). replace (rturn st (i, a) (proj (yl_rng w) nv)) with (proj (yl_rng w) nv); [exact (IH s1 w T1 nv HM HI HA')|].
    unfold rturn. cbn [fst snd]. rewrite Q2'. unfold rstep. rewrite Ev. rewrite (set_call_id _ _ _ Q2'). reflexivity. }
  assert (GO : yl_turn st rqs (i, a, newest (lk_msgs (yl_rng w)) U1 + match use_of (rc_pc c) with Stores _ => 1 | _ => 0 end) w =
      mkyl (yl_len w) (yl_msgs w) (yl_thr w) (prompt_turn st (i, a) (yl_rng w)) -> exists more T2 nv2, yl_thr (run more w) = yl_thr w /\ lkinv st stk pos rqs T T2 nv2 (yl_rng (run more w)) /\
    proj (yl_rng (run more w)) nv2 = rexec st s (rturn st (i, a) (proj (yl_rng w) nv))).
  { set (t := newest _ _ + _). intros E. destruct (prompt_turn_inv st stk pos rqs T HRq HDs T1 nv (yl_rng w) (i, a) HI) as (T2 & nv2 & HI2 & E2). rewrite <- E2.
    destruct (turn_sim s1 w (i, a, t) HM) as (s1' & HM'). rewrite E in HM'.
    destruct (IH s1' _ T2 nv2 HM' HI2 HA') as (more & T3 & nv3 & A1 & A2 & A3). exists ((i, a, t) :: more), T3, nv3. change (run ((i, a, t) :: more) w) with (run more (yl_turn st rqs (i, a, t) w)). rewrite E. auto. }
  assert (PT : prompt_turn st (i, a) (yl_rng w) = lk_turn st (i, a, newest (lk_msgs (yl_rng w)) U1 + match use_of (rc_pc c) with Stores _ => 1 | _ => 0 end) (yl_rng w)) by (unfold prompt_turn; cbn [fst]; rewrite Q2; reflexivity).
  rewrite PT in GO. unfold yl_turn in GO. rewrite Hp, Q2, Q3 in GO.
  pose proof HI as (_ & _ & Q & _). pose proof Q as (_ & _ & _ & HC & _). destruct (HC i b n c Q3 Q2') as (_ & _ & _ & _ & Hpc). unfold pc_ok in Hpc.
  destruct (rc_pc c) eqn:Epc; try (apply GO; reflexivity); [apply STAY; eauto|contradiction].
Qed.
Lemma step_outs n : forall w, (forall i, (i < length cs)%nat -> yasking w i /\ (exists c U, nth_error (lk_calls (yl_rng w)) i = Some (c, U) /\ rc_pc c = PRet 0) /\ nth_error rqs i <> None \/ yafter w i) ->
  exists more, yl_rng (run more w) = yl_rng w /\ (forall i, (i < n)%nat -> (i < length cs)%nat -> yafter (run more w) i) /\
    forall i, (n <= i)%nat -> nth_error (yl_thr (run more w)) i = nth_error (yl_thr w) i.
Proof.
  induction n as [|n IH]; intros w H; [exists []; split; [reflexivity|]; split; [lia|auto]|].
  destruct (IH w H) as (m1 & E1 & A1 & B1). destruct (lt_dec n (length cs)) as [Hn|Hn].
  2:{ exists m1. split; [exact E1|]. split; [intros i Hi Hl; apply A1; lia|]. intros i Hi. apply B1. lia. }
  destruct (H n Hn) as [((k & U & Hk) & (c & W & Hc & Ep) & Hq)|(p & U & Hp)].
  - destruct (nth_error rqs n) as [[b l]|] eqn:Eq; [|congruence]. rewrite <- (B1 n (Nat.le_refl n)) in Hk.
    exists (m1 ++ [(n, good, 0)]). rewrite yrun_app. cbn [yl_exec fold_left]. fold (run m1 w). split; [|split].
    + unfold yl_turn. rewrite Hk, E1, Hc, Eq, Ep. reflexivity.
    + intros i Hi Hl. destruct (Nat.eq_dec i n) as [->|Hne].
      * unfold yafter, yl_turn. rewrite Hk, E1, Hc, Eq, Ep. cbn [yl_thr]. rewrite (nth_yl_eq _ _ _ _ Hk). eauto.
      * unfold yafter. rewrite turn_others by exact Hne. apply A1; lia.
    + intros i Hi. rewrite turn_others by lia. apply B1. lia.
  - exists m1. split; [exact E1|]. split; [|intros i Hi; apply B1; lia]. intros i Hi Hl. destruct (Nat.eq_dec i n) as [->|]; [|apply A1; lia].
    exists p, U. rewrite B1 by lia. exact Hp.
Qed.
Lemma reach_afters s1 w : ysim s1 w -> (forall i, (i < length cs)%nat -> yasking w i \/ yafter w i) ->
  exists more, forall i, (i < length cs)%nat -> yafter (run more w) i.
Proof.
  intros HM HA. pose proof HM as ((T1 & nv & HI) & Lx & _ & Hph & _). set (r0 := proj (yl_rng w) nv).
  set (A := filter (fun i => match nth_error (yl_thr w) i with Some (Asking _, _) => true | _ => false end) (seq 0 (length cs))).
  assert (IA : forall i, In i A <-> yasking w i).
  { intros i. unfold A. rewrite filter_In, in_seq. split.
    - intros (_ & E). destruct (nth_error (yl_thr w) i) as [[[| k|] U]|] eqn:Ei; try discriminate. exists k, U. exact Ei.
    - intros (k & U & E). rewrite E. split; [|reflexivity]. split; [lia|]. rewrite <- Lx. cbn. apply nth_error_Some. congruence. }
  assert (INR : forall j c, nth_error (rw_calls r0) j = Some c -> (j < length cs)%nat).
  { intros j c Hc. pose proof HI as (_ & _ & (L & _) & _). fold r0 in L. rewrite <- HLn, <- L. apply nth_error_Some. congruence. }
  assert (BUSY : forall j c, nth_error (rw_calls r0) j = Some c -> ~ In j A -> rc_pc c = PTest \/ rc_pc c = PRet 0).
  { intros j c Hc Hj. pose proof (INR j c Hc) as Hjl. destruct (nth_error cs j) as [mc|] eqn:Ec; [|apply nth_error_None in Ec; lia].
    destruct (Hph j mc Ec) as (ph & V1 & c0 & U1 & rq & Q1 & Q2 & Q3 & Q4). apply nth_fst in Hc as (U2 & Hc). rewrite Q2 in Hc. injection Hc as -> _.
    destruct ph as [p k|k|p]; cbn [ph_ok] in Q4.
    - destruct Q4 as (_ & -> & _). left. reflexivity.
    - destruct Hj. apply IA. exists k, V1. exact Q1.
    - destruct (asks (snd mc)); [right; exact Q4|subst c; left; reflexivity]. }
  set (top := fold_right Z.max 0 (map snd rqs)).
  assert (HTop : forall i a n, nth_error rqs i = Some (a, n) -> n <= top).
  { intros i a n H. apply nth_error_In in H. unfold top. clear - H. induction rqs as [|[b m] l IH]; [destruct H|]. cbn [map snd fold_right]. destruct H as [E|H]; [injection E as -> ->; lia|specialize (IH H); lia]. }
  set (late := each A (Z.to_nat (3 * top + 6))).
  assert (DONE : forall i, In i A -> exists c, nth_error (rw_calls (rexec st (each A 1 ++ each A 4 ++ late) r0)) i = Some c /\ rc_pc c = PRet 0).
  { intros i HiA. rewrite !rexec_app. pose proof HI as (_ & _ & Q0 & _). fold r0 in Q0. set (w1 := rexec st (each A 1) r0). set (w2 := rexec st (each A 4) w1).
    assert (I1 : rinv st stk pos rqs w1) by (apply rinv_exec; assumption). assert (I2 : rinv st stk pos rqs w2) by (apply rinv_exec; assumption).
    assert (N1 : no_reset w1).
    { intros j c Hc. refine (no_reset_one st (each A 1) r0 j (each_good A 1) _ c Hc). destruct (in_dec Nat.eq_dec j A) as [Hj|Hj]; [left; pose proof (each_turns A 1 j Hj); lia|].
      right. intros d Hd. destruct (BUSY j d Hd Hj) as [E|E]; rewrite E; discriminate. }
    assert (N2 : no_reset w2) by (apply no_reset_exec; [apply each_good|exact N1]).
    assert (L2 : rw_lock w2 <> -1).
    { destruct (Z.eq_dec (rw_lock w1) (-1)) as [El|El]; [|apply (lock_exec st stk pos rqs HRq HDs); try assumption; apply each_good].
      pose proof I1 as (Ln & _ & _ & _ & (_ & _ & _ & H4) & _). destruct (H4 El) as [HP|(j & c & Hc & Ho)].
      - destruct (nth_error (rw_calls w1) i) as [c|] eqn:Ei.
        + apply (lock_set st stk pos rqs HRq HDs (each A 4) w1 i c 3 (each_good A 4) I1 N1 Ei); [rewrite (HP i c Ei); reflexivity|]. pose proof (each_turns A 4 i HiA). lia.
        + apply nth_error_None in Ei. apply IA in HiA as (k & U & Hk). assert (i < length (yl_thr w))%nat by (apply nth_error_Some; congruence). lia.
      - destruct (in_dec Nat.eq_dec j A) as [Hj|Hj].
        + pose proof (each_turns A 4 j Hj) as Ht. destruct (rc_pc c) eqn:Ep; cbn in Ho; try contradiction;
            (eapply (lock_set st stk pos rqs HRq HDs (each A 4) w1 j c _ (each_good A 4) I1 N1 Hc); [rewrite Ep; reflexivity|]; lia).
        + exfalso. unfold w1 in Hc. rewrite no_turn in Hc by (apply each_none; exact Hj). destruct (BUSY j c Hc Hj) as [E|E]; rewrite E in Ho; exact Ho. }
    destruct (nth_error (rw_calls w2) i) as [c|] eqn:Ei.
    2:{ apply nth_error_None in Ei. pose proof I2 as (Ln & _). apply IA in HiA as (k & U & Hk). assert (i < length (yl_thr w))%nat by (apply nth_error_Some; congruence). lia. }
    apply (finish st stk pos rqs HRq HDs late w2 i c (each_good A _) I2 N2 L2 Ei).
    pose proof I2 as (Ln & _ & _ & HC & _). destruct (calls_nth rqs w2 i c Ln Ei) as (b & n & Hb). destruct (HC i b n c Hb Ei) as (_ & E & ? & ? & _).
    pose proof (HTop i b n Hb). pose proof (each_turns A (Z.to_nat (3 * top + 6)) i HiA). fold late in H2. unfold todo. destruct (rc_pc c); try lia. destruct (is_open _ _); lia. }
  destruct (rng_steps (each A 1 ++ each A 4 ++ late) s1 w T1 nv HM HI) as (m1 & T2 & nv2 & E1 & HI2 & E2).
  { intros i a Hia. apply IA. rewrite !in_app_iff in Hia. destruct Hia as [X|[X|X]]; apply each_in in X; apply X. }
  fold r0 in E2. destruct (step_outs (length cs) (run m1 w)) as (m2 & _ & A2 & _).
  { intros i Hi. destruct (HA i Hi) as [Hask|(p & U & Hp)]; [left|right; exists p, U; rewrite E1; exact Hp].
    split; [destruct Hask as (k & U & Hk); exists k, U; rewrite E1; exact Hk|]. split.
    - destruct (DONE i) as (c & Hc & Ep); [apply IA; exact Hask|]. rewrite <- E2 in Hc. apply nth_fst in Hc as (U & Hc). eauto.
    - apply nth_error_Some. rewrite HLn. exact Hi. }
  exists (m1 ++ m2). rewrite yrun_app. intros i Hi. apply A2; exact Hi.
Qed.

(** Stage 3: the rest of the call. *)
Lemma after_steps R more : forall s1 w, length (yl_thr w) = length cs -> yl_len w = zlen mem -> (forall i, (i < length cs)%nat -> yafter w i) ->
  (exists thr, rx_exec s1 (first C (zlen mem) ms V cs R) = mkrx (zlen mem) (yl_msgs w) thr /\ same cs R (yl_thr w) thr) ->
  let w' := run (map (fun it => (fst it, good, snd it)) more) w in
  (forall i, (i < length cs)%nat -> yafter w' i) /\
  exists thr, rx_exec (s1 ++ more) (first C (zlen mem) ms V cs R) = mkrx (zlen mem) (yl_msgs w') thr /\ same cs R (yl_thr w') thr.
Proof.
  induction more as [|[i t] more IH]; intros s1 w L El HA HE; [rewrite app_nil_r; auto|].
  replace (s1 ++ (i, t) :: more) with ((s1 ++ [(i, t)]) ++ more) by (rewrite <- app_assoc; reflexivity). cbn [map fst snd].
  change (run ((i, good, t) :: map (fun it => (fst it, good, snd it)) more) w) with (run (map (fun it => (fst it, good, snd it)) more) (yl_turn st rqs (i, good, t) w)).
  destruct (lt_dec i (length cs)) as [Hi|Hi].
  - destruct (HA i Hi) as (p & U & Hp). pose proof (turn_others w i good t) as TO. unfold yl_turn in TO |- *. rewrite Hp in TO |- *. destruct (access (yl_len w) (yl_msgs w) p U t) as [[ms' p'] U'] eqn:Ea. rewrite El in Ea.
    apply IH; cbn [yl_thr yl_len yl_msgs] in *; [rewrite length_yl; exact L|exact El| |].
    + intros j Hj. destruct (Nat.eq_dec j i) as [->|Hn]; [exists p', U'; apply (nth_yl_eq _ _ _ _ Hp)|]. unfold yafter. cbn [yl_thr]. rewrite TO by exact Hn. apply HA, Hj.
    + apply (same_turn C (zlen mem) ms V cs rqs HLn R s1 w i t (After p) U p' U' ms' (After p')); try assumption; try reflexivity. intros q ->. exact Ea.
  - assert (E : nth_error (yl_thr w) i = None) by (apply nth_error_None; lia). unfold yl_turn. rewrite E. apply IH; try assumption.
    destruct HE as (thr & E1 & Hs). exists thr. split; [|exact Hs]. unfold rx_exec. rewrite fold_left_app. fold (rx_exec s1 (first C (zlen mem) ms V cs R)). rewrite E1. cbn [fold_left rx_turn].
    unfold rx_turn. cbn [rx_thr]. assert (E' : nth_error thr i = None) by (apply nth_error_None; destruct Hs as (L' & _); lia). rewrite E'. reflexivity.
Qed.
Lemma reach_ends s1 w : ysim s1 w -> (forall i, (i < length cs)%nat -> yafter w i) ->
  exists more, forall i, (i < length cs)%nat -> exists v, yresult (run more w) i = Some (ret 0, v).
Proof.
  intros HM HA. pose proof (ychosen_ok C mem ms V cs stk rqs T lock fds pos st HS s1 w HM) as HF.
  destruct (yseen s1 w _ HM (yagrees_chosen C cs rqs w) HF) as (thr & E & Hsm & HR). set (R := ychosen C cs rqs w) in *.
  pose proof HS as (Va & Hb & Hre & _). destruct (C54_threads C mem ms V _ Va Hb Hre HV HR s1) as (_ & _ & more & Ov).
  destruct (C54_threads C mem ms V _ Va Hb Hre HV HR (s1 ++ more)) as (Th & _). cbv zeta in Th.
  pose proof HM as (_ & Lx & El & _). rewrite <- first_started in E. destruct (after_steps R more s1 w Lx El HA) as (HA' & thr' & E' & Hs').
  { exists thr. auto. }
  rewrite <- first_started in Ov, Th. rewrite E' in Ov, Th. exists (map (fun it => (fst it, good, snd it)) more). set (w' := run _ w) in *. intros i Hi. destruct (HA' i Hi) as (p & U & Hp).
  destruct (nth_error cs i) as [[me c]|] eqn:Ec; [|apply nth_error_None in Ec; lia]. destruct (programs_map C R cs) as (_ & N).
  destruct (Th i me (call_with (R i) c)) as (q & v & Hq & Hres); [rewrite N, Ec; reflexivity|]. cbn [rx_thr] in Hq.
  destruct Hs' as (_ & Hs'). destruct (Hs' i _ _ _ Hp Hq) as (X & Y). cbn in X, Y. subst v q. destruct (Ov i _ Hq) as (r & Hr). cbn [fst] in Hr.
  destruct (Hres r Hr) as (-> & _). exists U. unfold yresult. rewrite Hp, Hr. reflexivity.
Qed.
Lemma reach_all s1 w : ysim s1 w -> exists more, forall i, (i < length cs)%nat -> exists v, yresult (run more w) i = Some (ret 0, v).
Proof.
  intros HM. destruct (reach_requests (length cs) s1 w HM) as (m1 & H1). destruct (exec_sim m1 s1 w HM) as (s2 & HM2).
  destruct (reach_afters s2 (run m1 w) HM2) as (m2 & H2); [intros i Hi; apply H1; exact Hi|]. destruct (exec_sim m2 s2 _ HM2) as (s3 & HM3).
  destruct (reach_ends s3 _ HM3 H2) as (m3 & H3). exists (m1 ++ m2 ++ m3). rewrite !yrun_app. exact H3.
Qed.
End Live.

(** ** From every state reached all calls can return: the schedule can be continued, with system calls
    that succeed and loads of messages that are there, so that every call has returned 0. *)
Theorem C54_library_ends : forall C mem ms V cs stk rqs lms T lock fds pos st,
  setting C mem cs stk rqs lock fds st -> shows ms V mem -> newest_is lms T lock ->
  forall sched, exists more, forall i, (i < length cs)%nat -> exists v,
    yresult (yl_exec st rqs (sched ++ more) (ybegin C mem ms V cs stk rqs lms T fds pos)) i = Some (ret 0, v).
Proof.
  intros C mem ms V cs stk rqs lms T lock fds pos st HS HV HN sched. destruct (ysim_run C mem ms V cs stk rqs lms T lock fds pos st HS HN sched) as (s1 & HM).
  destruct (reach_all C mem ms V cs stk rqs T lock fds pos st HS HV s1 _ HM) as (more & H). exists more. rewrite yrun_app. exact H.
Qed.
Print Assumptions C54_library_ends.

(** ** A case that meets the hypotheses: the three threads of C41_hyps, started by the program's first thread. *)
Example C54_library_hyps : setting C976 mem3 cs3a (zrep 200 0) [(0, 0); (0, 24); (100, 64)] (-1) [] (fun p => (p * p + 7) mod 256) /\
  shows (first_messages mem3 0) (fun _ => 0) mem3 /\ newest_is [(lock_at, 0, -1)] 0 (-1).
Proof. destruct C54_hyps as (_ & _ & _ & H & _). destruct C55_hyps as (_ & _ & H'). split; [exact C41_hyps|]. split; assumption. Qed.
