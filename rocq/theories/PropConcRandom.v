(** C37: randombytes called by several threads (Unix). *)
From Verif Require Import CSem Random PropKem ConcRandom ConcRandomProofs.

(** A request is a pair: the address of the buffer and the number of bytes asked for. *)
Definition requests_ok (mem : list Z) (rqs : list (Z * Z)) : Prop :=
  (forall i a n, nth_error rqs i = Some (a, n) -> 0 <= n < 2 ^ 31 /\ region mem a n) /\
  (forall i j a n b m, i <> j -> nth_error rqs i = Some (a, n) -> nth_error rqs j = Some (b, m) -> disjoint a n b m).
(** The device has not been opened yet, or [lock] is one of its open descriptors. *)
Definition device_ok (lock : Z) (fds : list Z) : Prop := (lock = -1 \/ In lock fds) /\ ~ In (-1) fds.
(** The threads are about to make the calls. *)
Definition start (mem : list Z) (lock : Z) (fds : list Z) (pos : Z) (rqs : list (Z * Z)) : rworld :=
  mkrw mem lock fds pos (map rcall_start rqs).
(** Call i has returned v. *)
Definition has_returned (w : rworld) (i : nat) (v : Z) : Prop :=
  exists c, nth_error (rw_calls w) i = Some c /\ rc_pc c = PRet v.
Definition has_faulted (w : rworld) (i : nat) : Prop :=
  exists c e, nth_error (rw_calls w) i = Some c /\ rc_pc c = PFault e.

Lemma to_int_small n : 0 <= n < 2 ^ 31 -> to_int n = n.
Proof. intros H. unfold to_int. rewrite Z.mod_small by lia. destruct (Z.ltb_spec n 2147483648); lia. Qed.
Lemma start_inv st mem lock fds pos rqs : requests_ok mem rqs -> device_ok lock fds ->
  rinv st mem pos rqs (start mem lock fds pos rqs).
Proof.
  intros (H1 & H2) (H3 & H4). assert (N : forall i c, nth_error (map rcall_start rqs) i = Some c -> exists rq, nth_error rqs i = Some rq /\ c = rcall_start rq).
  { intros i c H. rewrite nth_error_map in H. destruct (nth_error rqs i) as [rq|]; [|discriminate]. injection H as <-. eauto. }
  assert (C0 : forall i c, nth_error (map rcall_start rqs) i = Some c -> rc_count c = 0 /\ rc_pc c = PTest).
  { intros i c H. destruct (N i c H) as (rq & _ & ->). split; reflexivity. }
  split; [apply map_length|]. split; [reflexivity|]. split; [apply Z.le_refl|]. cbn [start rw_calls]. split.
  { intros i a n c Hr Hc. destruct (N i c Hc) as (rq & Hr' & ->). rewrite Hr in Hr'. injection Hr' as <-.
    destruct (H1 i a n Hr) as (Hn & _). unfold call_ok, rcall_start, pc_ok. cbn. rewrite to_int_small by exact Hn. repeat split; lia. }
  split.
  { split; [exact H3|]. split; [exact H4|]. cbn [rw_calls start]. split.
    - intros i c fd Hc E. destruct (C0 i c Hc). congruence.
    - intros _. left. intros i c Hc. apply (C0 i c Hc). }
  exists (fun _ _ => 0). unfold data_ok. cbn [start rw_calls rw_mem rw_pos]. split; [|split; [|split]].
  - intros i a n c _ Hc k Hk. destruct (C0 i c Hc). lia.
  - intros i c k l Hc H5 H6. destruct (C0 i c Hc). lia.
  - intros i j c d k l Hc Hd Hk. destruct (C0 i c Hc). lia.
  - reflexivity.
Qed.
Lemma final_inv st mem lock fds pos rqs sched : requests_ok mem rqs -> device_ok lock fds ->
  rinv st mem pos rqs (rexec st sched (start mem lock fds pos rqs)).
Proof.
  intros Hq Hd. apply rinv_exec; [| |apply start_inv; assumption].
  - intros i a n H. destruct Hq as (Hq & _). destruct (Hq i a n H) as (? & ? & ?). lia.
  - intros i j a n b m H1 H2 H3. destruct Hq as (_ & Hq). exact (Hq i j a n b m H1 H2 H3).
Qed.

Lemma inv_facts st mem pos rqs w : rinv st mem pos rqs w ->
  (forall i, ~ has_faulted w i) /\ (forall i v, has_returned w i v -> v = 0) /\
  (exists src : nat -> Z -> Z,
    (forall i a n, nth_error rqs i = Some (a, n) -> has_returned w i 0 ->
       forall k, 0 <= k < n -> znth (rw_mem w) (a + k) = st (src i k) /\ pos <= src i k < rw_pos w) /\
    (forall i a n, nth_error rqs i = Some (a, n) -> has_returned w i 0 ->
       forall k l, 0 <= k < l -> l < n -> src i k < src i l) /\
    (forall i j a n b m, i <> j -> nth_error rqs i = Some (a, n) -> nth_error rqs j = Some (b, m) ->
       has_returned w i 0 -> has_returned w j 0 ->
       forall k l, 0 <= k < n -> 0 <= l < m -> src i k <> src j l)) /\
  zlen (rw_mem w) = zlen mem /\
  (forall x, (forall i a n, nth_error rqs i = Some (a, n) -> ~ a <= x < a + n) -> znth (rw_mem w) x = znth mem x).
Proof.
  intros (L & LM & Hp & HC & HL & src & D1 & D2 & D3 & D4).
  assert (CN : forall i c, nth_error (rw_calls w) i = Some c -> exists a n, nth_error rqs i = Some (a, n)) by (intros i c; apply calls_nth; exact L).
  assert (DONE : forall i a n v, nth_error rqs i = Some (a, n) -> has_returned w i v -> exists c, nth_error (rw_calls w) i = Some c /\ rc_count c = n).
  { intros i a n v Hr (c & Hc & Ep). exists c. split; [exact Hc|]. destruct (HC i a n c Hr Hc) as (_ & E & _ & _ & Hpc).
    unfold pc_ok in Hpc. rewrite Ep in Hpc. lia. }
  split; [|split; [|split; [|split]]].
  - intros i (c & e & Hc & Ep). destruct (CN i c Hc) as (a & n & Hr). destruct (HC i a n c Hr Hc) as (_ & _ & _ & _ & Hpc).
    unfold pc_ok in Hpc. rewrite Ep in Hpc. exact Hpc.
  - intros i v (c & Hc & Ep). destruct (CN i c Hc) as (a & n & Hr). destruct (HC i a n c Hr Hc) as (_ & _ & _ & _ & Hpc).
    unfold pc_ok in Hpc. rewrite Ep in Hpc. apply Hpc.
  - exists src. split; [|split].
    + intros i a n Hr Hret k Hk. destruct (DONE i a n 0 Hr Hret) as (c & Hc & E). apply (D1 i a n c Hr Hc). lia.
    + intros i a n Hr Hret k l H1 H2. destruct (DONE i a n 0 Hr Hret) as (c & Hc & E). apply (D2 i c k l Hc H1). lia.
    + intros i j a n b m Hij Hr Hr' Hret Hret' k l Hk Hl E. destruct (DONE i a n 0 Hr Hret) as (c & Hc & Ec).
      destruct (DONE j b m 0 Hr' Hret') as (d & Hdd & Ed). apply Hij. apply (D3 i j c d k l Hc Hdd); auto; lia.
  - exact LM.
  - intros x Hx. apply D4. intros i a n c Hr Hc Hk. destruct (HC i a n c Hr Hc) as (_ & E & ? & ? & _). apply (Hx i a n Hr). lia.
Qed.

(** ** Safety: every schedule, every behaviour of the operating system *)
(** No call runs into undefined behaviour, and none returns anything but 0.  Every byte of the
    buffer of a call that has returned is a byte of the device's stream, in the stream's
    order; no byte of the stream is delivered twice, neither to two calls nor within one.
    Outside the buffers the memory is as before. *)
Theorem C37_threads : forall st mem lock fds pos rqs sched, requests_ok mem rqs -> device_ok lock fds ->
  let w := rexec st sched (start mem lock fds pos rqs) in
  (forall i, ~ has_faulted w i) /\ (forall i v, has_returned w i v -> v = 0) /\
  (exists src : nat -> Z -> Z,
    (forall i a n, nth_error rqs i = Some (a, n) -> has_returned w i 0 ->
       forall k, 0 <= k < n -> znth (rw_mem w) (a + k) = st (src i k) /\ pos <= src i k < rw_pos w) /\
    (forall i a n, nth_error rqs i = Some (a, n) -> has_returned w i 0 ->
       forall k l, 0 <= k < l -> l < n -> src i k < src i l) /\
    (forall i j a n b m, i <> j -> nth_error rqs i = Some (a, n) -> nth_error rqs j = Some (b, m) ->
       has_returned w i 0 -> has_returned w j 0 ->
       forall k l, 0 <= k < n -> 0 <= l < m -> src i k <> src j l)) /\
  zlen (rw_mem w) = zlen mem /\
  (forall x, (forall i a n, nth_error rqs i = Some (a, n) -> ~ a <= x < a + n) -> znth (rw_mem w) x = znth mem x).
Proof. intros st mem lock fds pos rqs sched Hq Hd w. apply inv_facts. apply final_inv; assumption. Qed.
Print Assumptions C37_threads.

(** When all calls have returned, [lock] is an open descriptor: later calls use it. *)
Theorem C37_lock : forall st mem lock fds pos rqs sched, requests_ok mem rqs -> device_ok lock fds -> rqs <> [] ->
  let w := rexec st sched (start mem lock fds pos rqs) in
  (forall i, (i < length rqs)%nat -> has_returned w i 0) -> rw_lock w <> -1 /\ In (rw_lock w) (rw_open w).
Proof.
  intros st mem lock fds pos rqs sched Hq Hd Hne w Hall.
  destruct (final_inv st mem lock fds pos rqs sched Hq Hd) as (L & _ & _ & _ & (H1 & _ & _ & H4) & _). fold w in L, H1, H4.
  assert (Hl : rw_lock w <> -1).
  { intros El. assert (H0 : (0 < length rqs)%nat) by (destruct rqs; [congruence|cbn; lia]).
    destruct (H4 El) as [HT|(i & c & Hc & Ho)].
    - destruct (Hall O H0) as (c & Hc & Ep). rewrite (HT O c Hc) in Ep. discriminate.
    - assert (Hi : (i < length rqs)%nat) by (rewrite <- L; apply nth_error_Some; congruence).
      destruct (Hall i Hi) as (c' & Hc' & Ep). rewrite Hc in Hc'. injection Hc' as <-. rewrite Ep in Ho. exact Ho. }
  split; [exact Hl|]. destruct H1 as [H1|H1]; [contradiction|exact H1].
Qed.
Print Assumptions C37_lock.

(** ** Progress *)
(** Whatever happened before ([early] may contain any failures): from the moment on from which
    open() succeeds and read() gives at least one byte, every call has returned after
    3 n + 11 rounds, where a round is a stretch of the schedule in which every call gets a
    turn and n is the longest request. *)
Definition round_of (rqs : list (Z * Z)) (r : list (nat * answer)) : Prop :=
  forall i, (i < length rqs)%nat -> In i (map fst r).
Definition succeeds (a : answer) : Prop := an_open a <> None /\ exists k, an_read a = RGive k /\ 1 <= k.
Lemma turns_concat rqs rounds i : (forall r, In r rounds -> round_of rqs r) -> (i < length rqs)%nat ->
  (length rounds <= turns i (concat rounds))%nat.
Proof.
  intros H Hi. induction rounds as [|r rs IH]; [cbn; lia|]. cbn [concat length]. unfold turns. rewrite map_app, count_occ_app.
  assert (0 < count_occ Nat.eq_dec (map fst r) i)%nat by (apply count_occ_In, H; [left; reflexivity|exact Hi]).
  assert (length rs <= turns i (concat rs))%nat by (apply IH; intros r' Hr'; apply H; right; exact Hr'). unfold turns in *. lia.
Qed.
Lemma rexec_app st s1 s2 w : rexec st (s1 ++ s2) w = rexec st s2 (rexec st s1 w).
Proof. apply fold_left_app. Qed.
Lemma returns_from st mem pos rqs w1 rounds : requests_ok mem rqs -> rinv st mem pos rqs w1 ->
  (forall r, In r rounds -> round_of rqs r /\ forall ia, In ia r -> succeeds (snd ia)) ->
  (forall i a n, nth_error rqs i = Some (a, n) -> 3 * n + 11 <= Z.of_nat (length rounds)) ->
  forall i, (i < length rqs)%nat -> has_returned (rexec st (concat rounds) w1) i 0.
Proof.
  intros Hq I1 Hr Hlen i Hi.
  assert (HR : forall i a n, nth_error rqs i = Some (a, n) -> 0 <= n < 2147483648 /\ 0 <= a /\ a + n <= zlen mem).
  { intros j a n H. destruct Hq as (Hq & _). destruct (Hq j a n H) as (? & ? & ?). lia. }
  assert (HDj : forall i j a n b m, i <> j -> nth_error rqs i = Some (a, n) -> nth_error rqs j = Some (b, m) -> a + n <= b \/ b + m <= a).
  { intros k j a n b m H1 H2 H3. destruct Hq as (_ & Hq). exact (Hq k j a n b m H1 H2 H3). }
  destruct (nth_error rqs i) as [[a n]|] eqn:Er; [|apply nth_error_None in Er; lia].
  pose proof (Hlen i a n Er) as Hl. destruct (HR i a n Er) as (Hn & _).
  destruct rounds as [|r1 rs]; [cbn [length] in Hl; lia|]. cbn [length] in Hl.
  set (mid := firstn 4 rs). set (late := skipn 4 rs). assert (Ers : rs = mid ++ late) by (symmetry; apply firstn_skipn).
  assert (Lm : length mid = 4%nat) by (unfold mid; rewrite firstn_length; lia).
  assert (Ll : Z.of_nat (length late) >= 3 * n + 6) by (unfold late; rewrite skipn_length; lia).
  assert (GC : forall l, (forall r, In r l -> In r (r1 :: rs)) -> good_sched (concat l)).
  { intros l Hs ia Hia. apply in_concat in Hia. destruct Hia as (r & Hr1 & Hr2). destruct (Hr r (Hs r Hr1)) as (_ & G). exact (G ia Hr2). }
  assert (G1 : good_sched r1) by (intros ia Hia; destruct (Hr r1 ltac:(left; reflexivity)) as (_ & G); exact (G ia Hia)).
  assert (G2 : good_sched (concat mid)) by (apply GC; intros r Hin; right; rewrite Ers; apply in_or_app; auto).
  assert (G3 : good_sched (concat late)) by (apply GC; intros r Hin; right; rewrite Ers; apply in_or_app; auto).
  cbn [concat]. rewrite Ers, concat_app. rewrite !rexec_app.
  set (w2 := rexec st r1 w1). assert (I2 : rinv st mem pos rqs w2) by (apply rinv_exec; assumption).
  assert (N2 : no_reset w2).
  { intros j c Hc. refine (no_reset_one st r1 w1 j G1 _ c Hc). left. apply count_occ_In.
    destruct (Hr r1 ltac:(left; reflexivity)) as (Hround & _). apply Hround. destruct I2 as (L2 & _). rewrite <- L2. apply nth_error_Some. congruence. }
  set (w3 := rexec st (concat mid) w2).
  assert (I3 : rinv st mem pos rqs w3) by (apply rinv_exec; assumption).
  assert (N3 : no_reset w3) by (apply no_reset_exec; assumption).
  assert (Tm : forall j, (j < length rqs)%nat -> (4 <= turns j (concat mid))%nat).
  { intros j Hj. rewrite <- Lm. apply (turns_concat rqs); [|exact Hj]. intros r Hin. apply Hr. right. rewrite Ers. apply in_or_app; auto. }
  assert (L3 : rw_lock w3 <> -1).
  { destruct (Z.eq_dec (rw_lock w2) (-1)) as [El|El]; [|eapply lock_exec; eassumption].
    pose proof I2 as (L2 & _ & _ & _ & (_ & _ & _ & H4) & _).
    assert (X : exists j c d, nth_error (rw_calls w2) j = Some c /\ dist (rc_pc c) = Some d /\ (d <= 4)%nat).
    { destruct (H4 El) as [HT|(j & c & Hc & Ho)].
      - destruct (nth_error (rw_calls w2) i) as [c|] eqn:Ec; [|apply nth_error_None in Ec; lia].
        exists i, c, 3%nat. rewrite (HT i c Ec). cbn. auto.
      - exists j, c. destruct (rc_pc c); cbn in *; try contradiction; eexists; split; eauto. }
    destruct X as (j & c & d & Hc & Hdist & Hd4). eapply (lock_set st mem pos rqs HR HDj (concat mid) w2 j c d); eauto.
    etransitivity; [exact Hd4|]. apply Tm. rewrite <- L2. apply nth_error_Some. congruence. }
  destruct I3 as (LL3 & HI3). pose proof (conj LL3 HI3 : rinv st mem pos rqs w3) as I3.
  destruct (nth_error (rw_calls w3) i) as [c|] eqn:Ec; [|apply nth_error_None in Ec; lia].
  assert (Tl : (length late <= turns i (concat late))%nat).
  { apply (turns_concat rqs); [|exact Hi]. intros r Hin. apply Hr. right. rewrite Ers. apply in_or_app; auto. }
  apply (finish st mem pos rqs HR HDj (concat late) w3 i c G3 I3 N3 L3 Ec).
  destruct I3 as (_ & _ & _ & HC3 & _). destruct (HC3 i a n c Er Ec) as (_ & E & ? & ? & _).
  unfold todo. destruct (rc_pc c); try lia. destruct (is_open _ _); lia.
Qed.
Theorem C37_returns : forall st mem lock fds pos rqs early rounds, requests_ok mem rqs -> device_ok lock fds ->
  (forall r, In r rounds -> round_of rqs r /\ forall ia, In ia r -> succeeds (snd ia)) ->
  (forall i a n, nth_error rqs i = Some (a, n) -> 3 * n + 11 <= Z.of_nat (length rounds)) ->
  forall i, (i < length rqs)%nat -> has_returned (rexec st (early ++ concat rounds) (start mem lock fds pos rqs)) i 0.
Proof.
  intros st mem lock fds pos rqs early rounds Hq Hd Hr Hlen i Hi. rewrite rexec_app. apply (returns_from st mem pos rqs); try assumption. apply final_inv; assumption.
Qed.
Print Assumptions C37_returns.

(** ** What the shared variable costs *)
(** Two descriptors are opened although one is used: both calls may see lock = -1. *)
Theorem C37_one_descriptor_refuted :
  ~ (forall st mem rqs sched, requests_ok mem rqs ->
       (length (rw_open (rexec st sched (start mem (-1) [] 0 rqs))) <= 1)%nat).
Proof.
  intros H. specialize (H (fun _ => 0) [0; 0] [(0, 1); (1, 1)]
    (map (fun i => (i, {| an_open := Some (3 + i)%nat; an_read := RGive 1 |})) [0; 1; 0; 1]%nat)).
  cbn in H. assert (R : requests_ok [0; 0] [(0, 1); (1, 1)]).
  { split.
    - intros [|[|[|i]]] a n E; cbn in E; try discriminate; injection E as <- <-; (split; [lia|]); split; cbn; lia.
    - intros [|[|[|i]]] [|[|[|j]]] a n b m Hij E F; cbn in E, F; try discriminate; try congruence; injection E as <- <-; injection F as <- <-; unfold disjoint; lia. }
  specialize (H R). lia.
Qed.
Print Assumptions C37_one_descriptor_refuted.
(** A call that got its descriptor is not independent of the others: when another thread's
    open() fails at the wrong moment and that thread is not run again, the call waits for
    ever although the system serves it. *)
Theorem C37_waits_for_others : forall st,
  exists mem rqs early, requests_ok mem rqs /\
    forall m, let more := repeat (O, {| an_open := Some 3%nat; an_read := RGive 1 |}) m in
      ~ has_returned (rexec st (early ++ more) (start mem (-1) [] 0 rqs)) 0 0.
Proof.
  intros st. set (ok := {| an_open := Some 3%nat; an_read := RGive 1 |}). set (bad := {| an_open := None; an_read := RErr |}).
  exists [0; 0], [(0, 1); (1, 1)],
    [(0, ok); (1, bad); (1, bad); (0, ok); (0, ok); (0, ok); (0, ok); (1, bad)]%nat. split.
  { split.
    - intros [|[|[|i]]] a n E; cbn in E; try discriminate; injection E as <- <-; (split; [lia|]); split; cbn; lia.
    - intros [|[|[|i]]] [|[|[|j]]] a n b m Hij E F; cbn in E, F; try discriminate; try congruence; injection E as <- <-; injection F as <- <-; unfold disjoint; lia. }
  intros m more. unfold more. rewrite rexec_app.
  set (w0 := rexec st _ (start [0; 0] (-1) [] 0 [(0, 1); (1, 1)])). cbn in w0.
  assert (K : forall m w, rw_lock w = -1 -> rw_open w = [3] -> (exists c, nth_error (rw_calls w) 0 = Some c /\ rc_n c = 1 /\ (rc_pc c = PWhile \/ rc_pc c = PLock \/ rc_pc c = PRead (-1))) ->
    ~ has_returned (rexec st (repeat (O, ok) m) w) 0 0).
  { clear. intros m. induction m as [|m IH]; intros w Hl Ho (c & Hc & Hn & Hp).
    - intros (c' & Hc' & E). cbn [repeat rexec fold_left] in Hc'. rewrite Hc in Hc'. injection Hc' as <-. rewrite E in Hp. intuition discriminate.
    - cbn [repeat rexec fold_left]. apply IH.
      + unfold rturn. cbn [fst snd]. rewrite Hc. destruct c as [b p n0 count]. cbn in Hn, Hp. subst n0.
        destruct Hp as [Hp|[Hp|Hp] ]; subst p; unfold rstep, at_; cbn; rewrite ?Ho; cbn; exact Hl.
      + unfold rturn. cbn [fst snd]. rewrite Hc. destruct c as [b p n0 count]. cbn in Hn, Hp. subst n0.
        destruct Hp as [Hp|[Hp|Hp] ]; subst p; unfold rstep, at_; cbn; rewrite ?Ho; cbn; congruence.
      + unfold rturn. cbn [fst snd]. rewrite Hc. destruct c as [b p n0 count]. cbn in Hn, Hp. subst n0.
        destruct (rw_calls w) as [|c0 cs] eqn:Ec; [discriminate|].
        destruct Hp as [Hp|[Hp|Hp] ]; subst p; unfold rstep, at_; cbn; rewrite ?Ho; cbn; eexists; (split; [reflexivity|]); cbn; rewrite ?Hl; auto. }
  apply K; cbn; [reflexivity|reflexivity|]. eexists. split; [reflexivity|]. cbn. auto.
Qed.
Print Assumptions C37_waits_for_others.

(** ** A case that meets the hypotheses *)
(** Three calls; the first attempts to open the device fail, reads are short. *)
Example C37_requests : requests_ok (zrep 100 0) [(0, 32); (32, 16); (60, 40)] /\ device_ok (-1) [].
Proof.
  split; [split|split; [left; reflexivity|intros []]].
  - intros [|[|[|[|i]]]] a n E; cbn in E; try discriminate; injection E as <- <-; (split; [lia|]); split; try (rewrite zlen_zrep by lia); lia.
  - intros [|[|[|[|i]]]] [|[|[|[|j]]]] a n b m Hij E F; cbn in E, F; try discriminate; try congruence; injection E as <- <-; injection F as <- <-; unfold disjoint; lia.
Qed.
Example C37_rounds :
  let round := map (fun i => (i, {| an_open := Some (3 + i)%nat; an_read := RGive 7 |})) [2; 0; 0; 1]%nat in
  forall r, In r (repeat round 131) -> round_of [(0, 32); (32, 16); (60, 40)] r /\ forall ia, In ia r -> succeeds (snd ia).
Proof.
  intros round r Hr. apply repeat_spec in Hr. subst r. split.
  - intros [|[|[|i]]] Hi; cbn in *; auto; lia.
  - intros ia Hia. cbn in Hia. repeat (destruct Hia as [<-|Hia]; [split; [discriminate|exists 7; split; [reflexivity|lia]]|]). destruct Hia.
Qed.
