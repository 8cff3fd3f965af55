(** Properties C54 and C55 under every fair schedule: schedules without end in which every thread keeps
    getting turns and every store of [lock] is seen after some time. *)
From Verif Require Import CSem Params Macrify Kem Conc ConcKem PropConcKem Random ConcRandom ConcRandomProofs PropConcRandom ConcLib ConcLibProofs PropConcLib
  Relaxed PropRelaxed RelaxedRandom PropRelaxedRandom RelaxedLib RelaxedLibProofs PropRelaxedLib RelaxedFair.

(** The first n turns of a schedule without end. *)
Definition upto (f : nat -> nat * answer * Z) (n : nat) : list (nat * answer * Z) := map f (seq 0 n).
Lemma upto_next f n : upto f (Datatypes.S n) = upto f n ++ [f n].
Proof. unfold upto. rewrite seq_S, map_app. reflexivity. Qed.

(** The operating system's calls succeed from some moment on. *)
Definition system_works (f : nat -> nat * answer * Z) : Prop := exists n0, forall m, (n0 <= m)%nat -> succeeds (snd (fst (f m))).
(** [w n]: the state of random.c before turn n.  Every message for [lock] that is there at some moment is old news from
    some moment on: no load of [lock] that takes place then takes an older one. *)
Definition seen_in_time (w : nat -> lkworld) (f : nat -> nat * answer * Z) : Prop :=
  forall n u, lookup (lk_msgs (w n)) lock_at u <> None -> exists N, forall m c V, (N <= m)%nat ->
    nth_error (lk_calls (w m)) (fst (fst (f m))) = Some (c, V) -> use_of (rc_pc c) = Loads -> w (Datatypes.S m) <> w m -> u <= snd (f m).

(** ** randombytes *)
(** Every schedule without end in which every call that has not returned does something again and again: whatever the system
    calls answered before they began to succeed, and however long the loads of [lock] took old values, there is a moment
    from which on all calls have returned 0. *)
Theorem C55_fair : forall st mem ms T lock fds pos rqs f, requests_ok mem rqs -> device_ok lock fds -> newest_is ms T lock ->
  let w n := lk_exec st (upto f n) (lk_start mem ms T fds pos rqs) in
  (forall i n, (i < length rqs)%nat -> exists m, (n <= m)%nat /\ (lk_returned (w m) i 0 \/ fst (fst (f m)) = i /\ w (Datatypes.S m) <> w m)) ->
  system_works f -> seen_in_time w f ->
  exists N, forall n i, (N <= n)%nat -> (i < length rqs)%nat -> lk_returned (w n) i 0.
Proof.
  intros st mem ms T lock fds pos rqs f Hq Hd HN w HF (n0 & HG) HV.
  assert (NX : forall n, w (Datatypes.S n) = lk_turn st (f n) (w n)) by (intros n; unfold w, lk_exec; rewrite upto_next, fold_left_app; reflexivity).
  destruct (fair_all st mem pos rqs T w f (fun _ => true) (fun _ => False)) with (n0 := n0) as (N & H).
  - auto.
  - auto.
  - intros n. apply (lk_final st mem ms T lock fds pos rqs (upto f n) Hq Hd HN).
  - intros n _. right. exact (NX n).
  - discriminate.
  - intros i n _ Hi. destruct (HF i n Hi) as (m & Hm & [R|(E1 & E2)]); exists m; (split; [exact Hm|]); right; [left; exact R|right; split; [exact (NX m)|auto]].
  - exact HG.
  - intros n u Hu. destruct (HV n u Hu) as (N & HN'). exists N. intros m c V Hm _. exact (HN' m c V Hm).
  - exists N. intros n i Hn Hi. destruct (H n Hn i Hi eq_refl) as [[]|X]. exact X.
Qed.
Print Assumptions C55_fair.

(** Without the last hypothesis this is false: a thread may keep loading an old -1 for ever, and read() with it fails for
    ever, although every turn does something and every system call succeeds where it can.
    Here call 0 opens the device and stores -1 after a first failure, then 3; call 1 has opened it too and got past the
    first loop, and then takes the -1 of call 0 again and again. *)
Definition unseen_early : list (nat * answer * Z) :=
  let ok fd := {| an_open := Some fd; an_read := RGive 1 |} in let no := {| an_open := None; an_read := RErr |} in
  [(1%nat, ok 4%nat, 0); (1%nat, ok 4%nat, 0); (0%nat, no, 0); (0%nat, no, 0); (0%nat, no, 10); (1%nat, ok 4%nat, 5); (1%nat, ok 4%nat, 5); (1%nat, ok 4%nat, 5); (1%nat, ok 4%nat, 0);
   (0%nat, no, 10); (0%nat, no, 10); (0%nat, ok 3%nat, 0); (0%nat, no, 20); (0%nat, no, 20); (0%nat, no, 20); (0%nat, no, 0); (0%nat, no, 20); (0%nat, ok 3%nat, 0); (0%nat, no, 0)].
Definition unseen (n : nat) : nat * answer * Z := nth n unseen_early (1%nat, {| an_open := Some 4%nat; an_read := RGive 1 |}, 10).
Theorem C55_unseen_refuted : exists st mem ms T lock fds pos rqs f, requests_ok mem rqs /\ device_ok lock fds /\ newest_is ms T lock /\
  let w n := lk_exec st (upto f n) (lk_start mem ms T fds pos rqs) in
  (forall i n, (i < length rqs)%nat -> exists m, (n <= m)%nat /\ (lk_returned (w m) i 0 \/ fst (fst (f m)) = i /\ w (Datatypes.S m) <> w m)) /\
  system_works f /\ forall n, ~ lk_returned (w n) 1 0.
Proof.
  exists (fun p => p), [0; 0], [(lock_at, 0, -1)], 0, (-1), [], 7, [(0, 1); (1, 1)], unseen. split; [|split; [|split]].
  - split.
    + intros [|[|i]] a n E; [injection E as <- <-; vm_compute; intuition congruence|injection E as <- <-; vm_compute; intuition congruence|destruct i; discriminate].
    + intros [|[|i]] [|[|j]] a n b m Hij Ei Ej; try congruence; try (destruct i; discriminate Ei); try (destruct j; discriminate Ej); injection Ei as <- <-; injection Ej as <- <-; vm_compute; intuition congruence.
  - split; [left; reflexivity|auto].
  - split; [reflexivity|]. intros t Ht. cbn. destruct t; try reflexivity; lia.
  - cbv zeta. set (w := fun n => lk_exec (fun p => p) (upto unseen n) (lk_start [0; 0] [(lock_at, 0, -1)] 0 [] 7 [(0, 1); (1, 1)])).
    assert (NX : forall n, w (Datatypes.S n) = lk_turn (fun p => p) (unseen n) (w n)) by (intros n; unfold w, lk_exec; rewrite upto_next, fold_left_app; reflexivity).
    set (ms' := [(lock_at, 20, 3); (lock_at, 5, 4); (lock_at, 10, -1); (lock_at, 0, -1)]).
    set (stuck := fun p => mklk [7; 0] ms' [3; 4] 8 [(mkc 0 (PRet 0) 0 1, 20); (mkc 1 p 1 0, 10)]).
    assert (TAIL : forall n, unseen (19 + n) = (1%nat, {| an_open := Some 4%nat; an_read := RGive 1 |}, 10)) by (intros n; unfold unseen; apply nth_overflow; cbn; lia).
    assert (W0 : w 20%nat = stuck (PRead (-1))) by (vm_compute; reflexivity).
    assert (ST : forall j, w (20 + 2 * j)%nat = stuck (PRead (-1)) /\ w (21 + 2 * j)%nat = stuck PLock).
    { assert (ONE : forall j, w (20 + 2 * j)%nat = stuck (PRead (-1)) -> w (21 + 2 * j)%nat = stuck PLock).
      { intros j E. change (21 + 2 * j)%nat with (Datatypes.S (20 + 2 * j)). rewrite NX, E. replace (20 + 2 * j)%nat with (19 + (1 + 2 * j))%nat by lia. rewrite TAIL. reflexivity. }
      induction j as [|j (IH1 & IH2)]; [split; [exact W0|apply (ONE 0%nat), W0]|].
      assert (E : w (20 + 2 * Datatypes.S j)%nat = stuck (PRead (-1))).
      { replace (20 + 2 * Datatypes.S j)%nat with (Datatypes.S (21 + 2 * j)) by lia. rewrite NX, IH2. replace (21 + 2 * j)%nat with (19 + (2 + 2 * j))%nat by lia. rewrite TAIL. reflexivity. }
      split; [exact E|apply ONE, E]. }
    split; [|split].
    + intros i n Hi. destruct (ST n) as (E1 & E2). exists (20 + 2 * n)%nat. split; [lia|]. destruct i as [|[|i]]; [left|right|cbn in Hi; lia].
      * rewrite E1. do 2 eexists. split; reflexivity.
      * split; [replace (20 + 2 * n)%nat with (19 + (1 + 2 * n))%nat by lia; rewrite TAIL; reflexivity|]. change (Datatypes.S (20 + 2 * n)) with (21 + 2 * n)%nat. rewrite E1, E2. discriminate.
    + exists 19%nat. intros m Hm. replace m with (19 + (m - 19))%nat by lia. rewrite TAIL. split; [discriminate|]. exists 1. split; [reflexivity|lia].
    + intros n (c & V & E & Ep). destruct (le_lt_dec 20 n) as [Hn|Hn].
      * assert (X : w n = stuck (PRead (-1)) \/ w n = stuck PLock).
        { pose proof (Nat.div_mod (n - 20) 2 ltac:(lia)) as D. pose proof (Nat.mod_upper_bound (n - 20) 2 ltac:(lia)) as B. destruct (ST ((n - 20) / 2)%nat) as (E1 & E2).
          destruct (Nat.eq_dec ((n - 20) mod 2) 0) as [Z0|Z0]; [left; rewrite <- E1|right; rewrite <- E2]; f_equal; lia. }
        destruct X as [X|X]; rewrite X in E; cbn in E; injection E as <- _; discriminate.
      * assert (B : forallb (fun n => match nth_error (lk_calls (w n)) 1 with Some (c, _) => match rc_pc c with PRet _ => false | _ => true end | None => true end) (seq 0 20) = true) by (vm_compute; reflexivity).
        rewrite forallb_forall in B. specialize (B n ltac:(apply in_seq; lia)). cbv beta in B. rewrite E, Ep in B. discriminate.
Qed.
Print Assumptions C55_unseen_refuted.

(** ** The API *)
(** What can be left of a program after its next action. *)
Inductive child {A} : prog A -> prog A -> Prop :=
| child_ld a k v : child (k v) (Ld a k)
| child_ldf a k : child (Fault UB_oob) (Ld a k)
| child_st a v k : child k (St a v k)
| child_stf a v k : child (Fault UB_oob) (St a v k)
| child_gld k v : child (k v) (Gld k)
| child_gst v k : child k (Gst v k).
Lemma child_acc {A} (p : prog A) : Acc child p.
Proof.
  assert (F : forall e : err, Acc child (@Fault A e)) by (intros e; constructor; intros q H; inversion H).
  induction p as [x|e|a k IH|a v k IH|k IH|v k IH]; constructor; intros q H; inversion H; subst; auto.
Qed.
Lemma access_cases {A} len ms (p : prog A) V t : access len ms p V t = (ms, p, V) \/ exists ms' p' V', access len ms p V t = (ms', p', V') /\ child p' p.
Proof.
  unfold access, rx_turn. cbn [nth_error rx_thr rx_msgs rx_len]. destruct p as [x|e|a k|a v k|k|v k]; cbn [rx_thr rx_msgs]; auto; unfold rx_load, rx_store;
    repeat match goal with |- context [if ?b then _ else _] => destruct b | |- context [match lookup ?a ?b ?c with _ => _ end] => destruct (lookup a b c) end;
    cbn [rx_thr rx_msgs set_rx]; auto; right; do 3 eexists; (split; [reflexivity|constructor]).
Qed.
(** ... and of a thread, outside randombytes. *)
Inductive onward : phase -> phase -> Prop :=
| on_before p' p k : child p' p -> onward (Before p' k) (Before p k)
| on_ask x k : onward (Asking (k x)) (Before (Ret x) k)
| on_after p' p : child p' p -> onward (After p') (After p).
Lemma onward_acc ph : Acc onward ph.
Proof.
  destruct ph as [p k|k|p].
  - induction (child_acc p) as [p _ IH]. constructor. intros ph' H. inversion H; subst; [auto|]. constructor. intros ph2 H2. inversion H2.
  - constructor. intros ph' H. inversion H.
  - induction (child_acc p) as [p _ IH]. constructor. intros ph' H. inversion H; subst. auto.
Qed.
Lemma set_yl_id l i y : nth_error l i = Some y -> set_yl l i y = l.
Proof. revert i; induction l as [|z l IH]; intros [|i] H; cbn in *; try discriminate; [injection H as ->; reflexivity|f_equal; auto]. Qed.

Section Run.
Variables (C : config) (mem : list Z) (ms : list message) (V : view) (cs : list (Z * acall)) (stk : list Z) (rqs : list (Z * Z))
  (lms : list message) (T lock : Z) (fds : list Z) (pos : Z) (st : Z -> Z) (f : nat -> nat * answer * Z).
Hypothesis HS : setting C mem cs stk rqs lock fds st.
Hypothesis HV : shows ms V mem.
Hypothesis HN : newest_is lms T lock.
Let HLn := set_len C mem cs stk rqs lock fds st HS.
Notation S := Datatypes.S.
Definition at_time (n : nat) : ylworld := yl_exec st rqs (upto f n) (ybegin C mem ms V cs stk rqs lms T fds pos).
Hypothesis HF : forall i n, (i < length cs)%nat -> exists m, (n <= m)%nat /\ (yresult (at_time m) i <> None \/ fst (fst (f m)) = i /\ at_time (S m) <> at_time m).
Notation entry i n := (nth_error (yl_thr (at_time n)) i).

Lemma time_next n : at_time (S n) = yl_turn st rqs (f n) (at_time n).
Proof. unfold at_time, yl_exec. rewrite upto_next, fold_left_app. reflexivity. Qed.
Lemma sim_at n : exists s1, ysim C st (zlen mem) ms V cs stk pos rqs T s1 (at_time n).
Proof. apply (ysim_run C mem ms V cs stk rqs lms T lock fds pos st HS HN). Qed.
Lemma have_entry i n : (i < length cs)%nat -> exists ph U, entry i n = Some (ph, U).
Proof.
  intros Hi. destruct (sim_at n) as (s1 & (_ & L & _)). destruct (entry i n) as [[ph U]|] eqn:E; [eauto|]. apply nth_error_None in E. lia.
Qed.
(** A thread outside randombytes moves on, or nothing happens to it. *)
Lemma entry_next i n ph U : entry i n = Some (ph, U) -> (forall k, ph <> Asking k) ->
  (entry i (S n) = Some (ph, U) /\ (fst (fst (f n)) = i -> at_time (S n) = at_time n)) \/ exists ph' U', entry i (S n) = Some (ph', U') /\ onward ph' ph.
Proof.
  intros E Hna. rewrite time_next. destruct (f n) as [[j a] t]. cbn [fst]. destruct (Nat.eq_dec i j) as [<-|Hne].
  2:{ left. rewrite turn_others by exact Hne. split; [exact E|congruence]. }
  assert (ID : mkyl (yl_len (at_time n)) (yl_msgs (at_time n)) (set_yl (yl_thr (at_time n)) i (ph, U)) (yl_rng (at_time n)) = at_time n) by (rewrite (set_yl_id _ _ _ E); destruct (at_time n); reflexivity).
  assert (MINE : forall y, nth_error (set_yl (yl_thr (at_time n)) i y) i = Some y) by (intros y; eapply nth_yl_eq; exact E).
  unfold yl_turn. rewrite E. destruct ph as [p k|k|p]; [|destruct (Hna k eq_refl)|].
  - assert (G : (let w' := let '(ms0, p', V') := access (yl_len (at_time n)) (yl_msgs (at_time n)) p U t in mkyl (yl_len (at_time n)) ms0 (set_yl (yl_thr (at_time n)) i (Before p' k, V')) (yl_rng (at_time n)) in
      (nth_error (yl_thr w') i = Some (Before p k, U) /\ (i = i -> w' = at_time n)) \/ exists ph' U', nth_error (yl_thr w') i = Some (ph', U') /\ onward ph' (Before p k))).
    { cbv zeta. destruct (access_cases (yl_len (at_time n)) (yl_msgs (at_time n)) p U t) as [->|(ms' & p' & V' & -> & Hc)].
      - left. rewrite ID. auto.
      - right. cbn [yl_thr]. exists (Before p' k), V'. split; [apply MINE|constructor; exact Hc]. }
    destruct p as [x0|e|a0 k0|a0 v0 k0|k0|v0 k0]; try exact G. right. cbn [yl_thr]. do 2 eexists. split; [apply MINE|constructor].
  - destruct (access_cases (yl_len (at_time n)) (yl_msgs (at_time n)) p U t) as [->|(ms' & p' & V' & -> & Hc)].
    + left. rewrite ID. auto.
    + right. cbn [yl_thr]. exists (After p'), V'. split; [apply MINE|constructor; exact Hc].
Qed.
Lemma wait d : forall i n ph U, entry i n = Some (ph, U) -> (forall k, ph <> Asking k) -> fst (fst (f (n + d))) = i -> at_time (S (n + d)) <> at_time (n + d) ->
  exists m ph' U', (n <= m)%nat /\ entry i m = Some (ph', U') /\ onward ph' ph.
Proof.
  induction d as [|d IH]; intros i n ph U E Hna E1 E2; destruct (entry_next i n ph U E Hna) as [(A & B)|(ph' & U' & A & B)]; try (exists (S n), ph', U'; split; [lia|auto]).
  - rewrite Nat.add_0_r in *. destruct (E2 (B E1)).
  - destruct (IH i (S n) ph U A Hna) as (m & ph' & U' & Hm & X); [replace (S n + d)%nat with (n + S d)%nat by lia; assumption|replace (S n + d)%nat with (n + S d)%nat by lia; assumption|].
    exists m, ph', U'. split; [lia|exact X].
Qed.
Lemma settles i : (i < length cs)%nat -> forall ph n U, entry i n = Some (ph, U) ->
  exists m ph' U', (n <= m)%nat /\ entry i m = Some (ph', U') /\ ((exists k, ph' = Asking k) /\ (forall p, ph <> After p) \/ yresult (at_time m) i <> None).
Proof.
  intros Hi ph. induction (onward_acc ph) as [ph _ IH]. intros n U E. destruct ph as [p k|k|p].
  2:{ exists n, (Asking k), U. split; [lia|]. split; [exact E|]. left. split; [eauto|discriminate]. }
  - destruct (HF i n Hi) as (m & Hm & [R|(E1 & E2)]).
    + destruct (have_entry i m Hi) as (ph' & U' & E'). exists m, ph', U'. auto.
    + replace m with (n + (m - n))%nat in E1, E2 by lia. destruct (wait _ i n _ U E ltac:(discriminate) E1 E2) as (m' & ph' & U' & Hm' & E' & On).
      destruct (IH ph' On m' U' E') as (m2 & ph2 & U2 & Hm2 & Q2 & [(Q3 & _)|Q3]); exists m2, ph2, U2; (split; [lia|]); (split; [exact Q2|]); [left; split; [exact Q3|discriminate]|right; exact Q3].
  - destruct (HF i n Hi) as (m & Hm & [R|(E1 & E2)]).
    + destruct (have_entry i m Hi) as (ph' & U' & E'). exists m, ph', U'. auto.
    + replace m with (n + (m - n))%nat in E1, E2 by lia. destruct (wait _ i n _ U E ltac:(discriminate) E1 E2) as (m' & ph' & U' & Hm' & E' & On). inversion On; subst.
      destruct (IH _ On m' U' E') as (m2 & ph2 & U2 & Hm2 & Q2 & [(_ & Q3)|Q3]); [destruct (Q3 p' eq_refl)|]. exists m2, ph2, U2. split; [lia|auto].
Qed.
(** What random.c does. *)
Lemma rng_next n : yl_rng (at_time (S n)) = yl_rng (at_time n) \/ yl_rng (at_time (S n)) = lk_turn st (f n) (yl_rng (at_time n)).
Proof.
  rewrite time_next. destruct (f n) as [[j a] t]. unfold yl_turn. destruct (nth_error (yl_thr (at_time n)) j) as [[[p k|k|p] U]|]; [| | |auto].
  - destruct p; try (destruct (access _ _ _ _ _) as [[? ?] ?]); auto.
  - destruct (nth_error (lk_calls (yl_rng (at_time n))) j) as [[c W0]|]; [|auto]. destruct (nth_error rqs j) as [[b l]|]; [|auto]. destruct (rc_pc c); auto.
  - destruct (access _ _ _ _ _) as [[? ?] ?]. auto.
Qed.
Definition wants (i : nat) : bool := match nth_error cs i with Some (_, c) => asks c | None => false end.
Lemma phase_at i n ph U : entry i n = Some (ph, U) -> exists mc c W rq, nth_error cs i = Some mc /\ nth_error (lk_calls (yl_rng (at_time n))) i = Some (c, W) /\ nth_error rqs i = Some rq /\
  ph_ok ph mc c rq /\ pc_ok c.
Proof.
  intros E. destruct (sim_at n) as (s1 & ((T1 & nv & (_ & _ & Q & _)) & L & _ & Hph & _)). assert (Hi : (i < length cs)%nat) by (rewrite <- L; apply nth_error_Some; congruence).
  destruct (nth_error cs i) as [mc|] eqn:Ec; [|apply nth_error_None in Ec; lia]. destruct (Hph i mc Ec) as (ph0 & U0 & c & W & [b l] & Q1 & Q2 & Q3 & Q4). rewrite E in Q1. injection Q1 as <- <-.
  exists mc, c, W, (b, l). split; [reflexivity|]. split; [exact Q2|]. split; [exact Q3|]. split; [exact Q4|]. destruct Q as (_ & _ & _ & HC & _). assert (Q2' : nth_error (rw_calls (proj (yl_rng (at_time n)) nv)) i = Some c) by (apply nth_fst; eauto).
  destruct (HC i b l c Q3 Q2') as (_ & _ & _ & _ & H). exact H.
Qed.
Lemma returned_after i n p U : wants i = true -> entry i n = Some (After p, U) -> lk_returned (yl_rng (at_time n)) i 0.
Proof.
  intros Ha E. destruct (phase_at i n _ _ E) as ([me c0] & c & W & rq & Q1 & Q2 & _ & Q4 & _). unfold wants in Ha. rewrite Q1 in Ha. cbn [ph_ok snd] in Q4. rewrite Ha in Q4. exists c, W. auto.
Qed.
Lemma result_after n i : yresult (at_time n) i <> None -> exists p U, entry i n = Some (After p, U) /\ ended p <> None.
Proof. unfold yresult. destruct (entry i n) as [[[| |p] U]|]; try congruence. intros H. exists p, U. split; [reflexivity|]. destruct (ended p); [discriminate|congruence]. Qed.
Lemma not_before i n ph U : entry i n = Some (ph, U) -> (forall p k, ph <> Before p k) -> exists ph' U', entry i (S n) = Some (ph', U') /\ (forall p k, ph' <> Before p k) /\ ((exists k, ph' = Asking k) -> exists k, ph = Asking k).
Proof.
  intros E H. destruct ph as [p k|k|p]; [destruct (H p k eq_refl)| |].
  - rewrite time_next. destruct (f n) as [[j a] t]. destruct (Nat.eq_dec i j) as [<-|Hne].
    2:{ rewrite turn_others by exact Hne. exists (Asking k), U. split; [exact E|]. split; [discriminate|eauto]. }
    assert (MINE : forall y, nth_error (set_yl (yl_thr (at_time n)) i y) i = Some y) by (intros y; eapply nth_yl_eq; exact E).
    unfold yl_turn. rewrite E. destruct (phase_at i n _ _ E) as (mc & c & W & [b l] & _ & Q2 & Q3 & _). rewrite Q2, Q3.
    destruct (rc_pc c); cbn [yl_thr]; try (exists (Asking k), U; split; [exact E|split; [discriminate|eauto]]); do 2 eexists; (split; [apply MINE|]); (split; [discriminate|eauto]).
  - destruct (entry_next i n _ U E ltac:(discriminate)) as [(A & _)|(ph' & U' & A & B)].
    + exists (After p), U. split; [exact A|]. split; [discriminate|intros (k & X); discriminate].
    + inversion B; subst. exists (After p'), U'. split; [exact A|]. split; [discriminate|intros (k & X); discriminate].
Qed.
Lemma not_before_later i n ph U : entry i n = Some (ph, U) -> (forall p k, ph <> Before p k) -> forall m, (n <= m)%nat -> exists ph' U', entry i m = Some (ph', U') /\ (forall p k, ph' <> Before p k).
Proof.
  intros E H. apply (stays (fun m => exists ph' U', entry i m = Some (ph', U') /\ (forall p k, ph' <> Before p k)) n); [eauto|].
  intros m _ (ph' & U' & E' & H'). destruct (not_before i m ph' U' E' H') as (ph2 & U2 & E2 & H2 & _). eauto.
Qed.
(** A turn of a thread in randombytes. *)
Lemma asking_turn i n k U : entry i n = Some (Asking k, U) -> fst (fst (f n)) = i -> at_time (S n) <> at_time n ->
  lk_returned (yl_rng (at_time n)) i 0 /\ (exists p U', entry i (S n) = Some (After p, U')) \/
  yl_rng (at_time (S n)) = lk_turn st (f n) (yl_rng (at_time n)) /\ yl_rng (at_time (S n)) <> yl_rng (at_time n) /\ (forall v, ~ lk_returned (yl_rng (at_time n)) i v).
Proof.
  intros E Ei Hne. destruct (phase_at i n _ _ E) as (mc & c & W & [b l] & _ & Q2 & Q3 & _ & Hok). revert Hne. rewrite time_next. destruct (f n) as [[j a] t]. cbn [fst] in Ei. subst j.
  assert (MINE : forall y, nth_error (set_yl (yl_thr (at_time n)) i y) i = Some y) by (intros y; eapply nth_yl_eq; exact E).
  unfold yl_turn. rewrite E, Q2, Q3. unfold pc_ok in Hok. destruct (rc_pc c) as [| |fd| | | | |fd|v|e] eqn:Ep; try contradiction; cbn [yl_rng yl_thr]; intros Hne;
    try (right; split; [reflexivity|]; split; [intros X; apply Hne; rewrite X; destruct (at_time n); reflexivity|intros v (c' & W' & X & Y); rewrite Q2 in X; injection X as <- <-; congruence]).
  left. destruct Hok as (-> & _). split; [exists c, W; auto|]. do 2 eexists. apply MINE.
Qed.

Theorem library_fair : system_works f -> seen_in_time (fun n => yl_rng (at_time n)) f ->
  forall i, (i < length cs)%nat -> exists N, forall n, (N <= n)%nat -> yresult (at_time n) i <> None.
Proof.
  intros (n0 & HG) HSeen. destruct (fair_all st stk pos rqs T (fun n => yl_rng (at_time n)) f wants (fun _ => False)) with (n0 := n0) as (N & HA).
  - auto.
  - auto.
  - intros n. destruct (sim_at n) as (s1 & (H & _)). exact H.
  - intros n _. exact (rng_next n).
  - intros n i c W _ Ha E. assert (Hi : (i < length cs)%nat).
    { rewrite <- HLn. destruct (sim_at n) as (s1 & ((T1 & nv & (_ & _ & (L & _) & _)) & _)). cbn [proj rw_calls] in L. rewrite map_length in L. rewrite <- L. apply nth_error_Some. congruence. }
    destruct (have_entry i n Hi) as (ph & U & Ee). destruct (phase_at i n _ _ Ee) as ([me c0] & c' & W' & rq & Q1 & Q2 & _ & Q4 & _). rewrite E in Q2. injection Q2 as <- <-.
    unfold wants in Ha. rewrite Q1 in Ha. unfold ph_ok in Q4. cbn [snd] in Q4. rewrite Ha in Q4. destruct ph; [destruct Q4; discriminate|discriminate|]. rewrite Q4. reflexivity.
  - intros i n Ha Hi. rewrite HLn in Hi. destruct (have_entry i n Hi) as (ph & U & Ee).
    destruct (settles i Hi ph n U Ee) as (m & ph' & U' & Hm & Em & [((k & ->) & _)|R]).
    2:{ exists m. split; [exact Hm|]. right. left. destruct (result_after m i R) as (p & U2 & E2 & _). exact (returned_after i m p U2 Ha E2). }
    destruct (HF i m Hi) as (m2 & Hm2 & X). exists m2. split; [lia|]. right. destruct X as [R|(E1 & E2)].
    + left. destruct (result_after m2 i R) as (p & U2 & E2 & _). exact (returned_after i m2 p U2 Ha E2).
    + destruct (not_before_later i m _ _ Em ltac:(discriminate) m2 Hm2) as (ph2 & U2 & Q1 & Q2). destruct ph2 as [p2 k2|k2|p2]; [destruct (Q2 p2 k2 eq_refl)| |left; exact (returned_after i m2 p2 U2 Ha Q1)].
      destruct (asking_turn i m2 k2 U2 Q1 E1 E2) as [(X & _)|(X & Y & _)]; [left; exact X|right; split; [exact X|auto]].
  - exact HG.
  - intros n u Hu. destruct (HSeen n u Hu) as (N & HN'). exists N. intros m c U Hm _. exact (HN' m c U Hm).
  - intros i Hi.
    assert (AFT : exists m p U, entry i m = Some (After p, U)).
    { destruct (have_entry i N Hi) as (ph & U & Ee). destruct (settles i Hi ph N U Ee) as (m & ph' & U' & Hm & Em & [((k & ->) & _)|R]).
      2:{ destruct (result_after m i R) as (p & U2 & E2 & _). eauto. }
      destruct (HF i m Hi) as (m2 & Hm2 & [R|(E1 & E2)]); [destruct (result_after m2 i R) as (p & U2 & E2 & _); eauto|].
      destruct (not_before_later i m _ _ Em ltac:(discriminate) m2 Hm2) as (ph2 & U2 & Q1 & Q2). destruct ph2 as [p2 k2|k2|p2]; [destruct (Q2 p2 k2 eq_refl)| |eauto].
      destruct (asking_turn i m2 k2 U2 Q1 E1 E2) as [(_ & X)|(_ & _ & X)]; [destruct X as (p & U3 & X); eauto|]. exfalso. destruct (HA m2 ltac:(lia) i ltac:(rewrite HLn; exact Hi)) as [[]|Y]; [|exact (X 0 Y)].
      destruct (phase_at i m2 _ _ Q1) as ([me c0] & c & W & rq & P1 & _ & _ & P4 & _). unfold wants. rewrite P1. exact P4. }
    destruct AFT as (m & p & U & Em). destruct (settles i Hi _ m U Em) as (m2 & ph2 & U2 & Hm2 & E2 & [(_ & X)|R]); [destruct (X p eq_refl)|].
    exists m2. apply (stays (fun n => yresult (at_time n) i <> None)); [exact R|]. intros n _ Rn. destruct (result_after n i Rn) as (q & Uq & Eq & Hq).
    destruct (entry_next i n _ Uq Eq ltac:(discriminate)) as [(A & _)|(ph' & U' & A & B)].
    + unfold yresult in *. rewrite A. rewrite Eq in Rn. exact Rn.
    + inversion B as [| |p' q' Hc]; subst. destruct Hc; cbn in Hq; congruence.
Qed.
End Run.

(** Any number of threads as in [C54_library], every schedule without end in which every thread that has not ended does
    something again and again: whatever the system calls answered before they began to succeed, and however long the loads took old values,
    there is a moment from which on all calls have ended; they have returned 0, with what [C54_library] says. *)
Theorem C54_library_fair : forall C mem ms V cs stk rqs lms T lock fds pos st f,
  setting C mem cs stk rqs lock fds st -> shows ms V mem -> newest_is lms T lock ->
  let w n := yl_exec st rqs (upto f n) (ybegin C mem ms V cs stk rqs lms T fds pos) in
  (forall i n, (i < length cs)%nat -> exists m, (n <= m)%nat /\ (yresult (w m) i <> None \/ fst (fst (f m)) = i /\ w (Datatypes.S m) <> w m)) ->
  system_works f -> seen_in_time (fun n => yl_rng (w n)) f ->
  exists N, forall n i, (N <= n)%nat -> (i < length cs)%nat -> exists v, yresult (w n) i = Some (ret 0, v).
Proof.
  intros C mem ms V cs stk rqs lms T lock fds pos st f HS HV HN w HF HG HSeen.
  destruct (all_eventually (length cs) (fun i n => yresult (w n) i <> None)) as (N & H).
  - intros i Hi. exact (library_fair C mem ms V cs stk rqs lms T lock fds pos st f HS HN HF HG HSeen i Hi).
  - exists N. intros n i Hn Hi. specialize (H n Hn i Hi). destruct (yresult (w n) i) as [[r v]|] eqn:E; [|congruence].
    destruct (C54_library C mem ms V cs stk rqs lms T lock fds pos st HS HV HN (upto f n)) as (src & A & _). fold (w n) in A.
    destruct (nth_error cs i) as [[me c]|] eqn:Ec; [|apply nth_error_None in Ec; lia]. destruct (A i me c r v Ec E) as (-> & _). eauto.
Qed.
Print Assumptions C54_library_fair.

(** ** The hypotheses can be met *)
(** Every beginning of a run can be continued to such a schedule. *)
Theorem C54_fair_schedules : forall C mem ms V cs stk rqs lms T lock fds pos st,
  setting C mem cs stk rqs lock fds st -> shows ms V mem -> newest_is lms T lock ->
  forall sched, exists f, upto f (length sched) = sched /\
  let w n := yl_exec st rqs (upto f n) (ybegin C mem ms V cs stk rqs lms T fds pos) in
  (forall i n, (i < length cs)%nat -> exists m, (n <= m)%nat /\ (yresult (w m) i <> None \/ fst (fst (f m)) = i /\ w (Datatypes.S m) <> w m)) /\
  system_works f /\ seen_in_time (fun n => yl_rng (w n)) f.
Proof.
  intros C mem ms V cs stk rqs lms T lock fds pos st HS HV HN sched. destruct (C54_library_ends C mem ms V cs stk rqs lms T lock fds pos st HS HV HN sched) as (more & HE).
  set (f := fun n => nth n (sched ++ more) (0%nat, good, 0)). exists f.
  assert (PRE : forall (l : list (nat * answer * Z)) d m, (m <= length l)%nat -> map (fun n => nth n l d) (seq 0 m) = firstn m l).
  { clear. intros l d m. induction m as [|m IH]; intros Hm; [reflexivity|]. rewrite seq_S, map_app, IH by lia. cbn [map Nat.add]. clear IH. revert m Hm. induction l as [|y l IH]; intros m Hm; [cbn in Hm; lia|].
    destruct m as [|m]; [reflexivity|]. cbn [firstn nth app]. f_equal. apply IH. cbn in Hm. lia. }
  split; [unfold upto, f; rewrite PRE by (rewrite app_length; lia); rewrite firstn_app, Nat.sub_diag, firstn_all, firstn_O, app_nil_r; reflexivity|].
  set (L := length (sched ++ more)). assert (EL : upto f L = sched ++ more) by (unfold upto, f, L; rewrite PRE by lia; apply firstn_all).
  intros w. assert (END : forall n, (L <= n)%nat -> forall i, (i < length cs)%nat -> yresult (w n) i <> None).
  { apply (stays (fun n => forall i, (i < length cs)%nat -> yresult (w n) i <> None)).
    - intros i Hi. unfold w. rewrite EL. destruct (HE i Hi) as (v & ->). discriminate.
    - intros n _ H i Hi. specialize (H i Hi). destruct (result_after C mem ms V cs stk rqs lms T fds pos st f n i H) as (q & U & Eq & Hq).
      destruct (entry_next C mem ms V cs stk rqs lms T fds pos st f i n _ U Eq ltac:(discriminate)) as [(A & _)|(ph' & U' & A & B)].
      + unfold yresult in *. unfold at_time in A. fold (w (Datatypes.S n)) in A. rewrite A. destruct (ended q); [discriminate|congruence].
      + inversion B as [| |p' q' Hc]; subst. destruct Hc; cbn in Hq; congruence. }
  split; [|split].
  - intros i n Hi. exists (Nat.max n L). split; [lia|]. left. apply END; [lia|exact Hi].
  - exists L. intros m Hm. unfold f. rewrite nth_overflow by exact Hm. exact good_ok.
  - intros n u _. exists L. intros m c W Hm _ _ Hne. exfalso. apply Hne. unfold w. rewrite upto_next. unfold yl_exec at 1. rewrite fold_left_app. fold (yl_exec st rqs (upto f m) (ybegin C mem ms V cs stk rqs lms T fds pos)). fold (w m). cbn [fold_left].
    destruct (f m) as [[j a] t]. unfold yl_turn. destruct (nth_error (yl_thr (w m)) j) as [[ph U]|] eqn:Ej; [|reflexivity].
    assert (Hj : (j < length cs)%nat) by (destruct (ysim_run C mem ms V cs stk rqs lms T lock fds pos st HS HN (upto f m)) as (s1 & (_ & Lx & _)); fold (w m) in Lx; rewrite <- Lx; apply nth_error_Some; congruence).
    specialize (END m Hm j Hj). unfold yresult in END. rewrite Ej in END. destruct ph as [p k|k|p]; try congruence. destruct (access _ _ _ _ _) as [[? ?] ?]. reflexivity.
Qed.
Print Assumptions C54_fair_schedules.
(** Two calls of randombytes: the schedule of [late_call], in which the second call goes on and returns. *)
Example C55_fair_hyps :
  let f n := nth n (late_call ++ map (fun t => (1%nat, {| an_open := Some 4%nat; an_read := RGive 1 |}, t)) [5; 5; 5; 0; 5; 0; 0]) (1%nat, {| an_open := Some 4%nat; an_read := RGive 1 |}, 0) in
  let w n := lk_exec (fun p => p) (upto f n) (lk_start [0; 0] [(lock_at, 0, -1)] 0 [] 7 [(0, 1); (1, 1)]) in
  (forall i n, (i < 2)%nat -> exists m, (n <= m)%nat /\ (lk_returned (w m) i 0 \/ fst (fst (f m)) = i /\ w (Datatypes.S m) <> w m)) /\ system_works f /\ seen_in_time w f /\
  lk_open (w 11%nat) = [4; 3] /\ ~ lk_returned (w 17%nat) 1 0.
Proof.
  intros f w. assert (NX : forall n, w (Datatypes.S n) = lk_turn (fun p => p) (f n) (w n)) by (intros n; unfold w, lk_exec; rewrite upto_next, fold_left_app; reflexivity).
  assert (TAIL : forall n, f (18 + n)%nat = (1%nat, {| an_open := Some 4%nat; an_read := RGive 1 |}, 0)) by (intros n; unfold f; apply nth_overflow; cbn; lia).
  set (e := mklk [7; 8] [(lock_at, 5, 4); (lock_at, 1, 3); (lock_at, 0, -1)] [4; 3] 9 [(mkc 0 (PRet 0) 0 1, 1); (mkc 1 (PRet 0) 0 1, 5)]).
  assert (W0 : w 18%nat = e) by (vm_compute; reflexivity).
  assert (WN : forall n, w (18 + n)%nat = e).
  { induction n as [|n IH]; [exact W0|]. rewrite Nat.add_succ_r, NX, IH, TAIL. reflexivity. }
  split; [|split; [|split; [|split]]].
  - intros i n Hi. exists (18 + n)%nat. split; [lia|]. left. rewrite WN. destruct i as [|[|i]]; [| |lia]; do 2 eexists; split; reflexivity.
  - exists 18%nat. intros m Hm. replace m with (18 + (m - 18))%nat by lia. rewrite TAIL. split; [discriminate|]. exists 1. split; [reflexivity|lia].
  - intros n u _. exists 18%nat. intros m c V Hm _ _ Hne. exfalso. apply Hne. replace m with (18 + (m - 18))%nat by lia. rewrite <- Nat.add_succ_r, !WN. reflexivity.
  - vm_compute. reflexivity.
  - intros (c & V & E & Ep). vm_compute in E. injection E as <- _. discriminate.
Qed.
