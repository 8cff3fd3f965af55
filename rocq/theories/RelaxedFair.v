(** Schedules without end of the calls of RelaxedRandom.v: when every call keeps getting turns and every store is
    seen after some time, all calls return. *)
From Verif Require Import CSem Random ConcRandom ConcRandomProofs PropConcRandom Relaxed RelaxedRandom PropRelaxedRandom.

(** Something that holds for each of finitely many from some moment on holds for all of them from some moment on. *)
Lemma all_eventually k (P : nat -> nat -> Prop) : (forall i, (i < k)%nat -> exists N, forall n, (N <= n)%nat -> P i n) ->
  exists N, forall n, (N <= n)%nat -> forall i, (i < k)%nat -> P i n.
Proof.
  induction k as [|k IH]; intros H; [exists 0%nat; intros; lia|]. destruct IH as (N & HN); [intros i Hi; apply H; lia|].
  destruct (H k ltac:(lia)) as (M & HM). exists (Nat.max N M). intros n Hn i Hi. destruct (Nat.eq_dec i k) as [->|]; [apply HM; lia|apply HN; lia].
Qed.
(** A measure that never grows, and shrinks again and again unless the goal is reached. *)
Lemma reaches (r : nat -> nat) (G : nat -> Prop) N : (forall n, (N <= n)%nat -> G n \/ (r (Datatypes.S n) <= r n)%nat) ->
  (forall n, (N <= n)%nat -> exists m, (n <= m)%nat /\ (G m \/ (r (Datatypes.S m) < r m)%nat)) -> exists n, (N <= n)%nat /\ G n.
Proof.
  intros H1 H2. assert (L : forall d n, (N <= n)%nat -> (exists m, (N <= m)%nat /\ G m) \/ (r (n + d) <= r n)%nat).
  { induction d as [|d IH]; intros n Hn; [right; rewrite Nat.add_0_r; lia|]. destruct (IH n Hn) as [X|X]; [auto|].
    destruct (H1 (n + d)%nat ltac:(lia)) as [Y|Y]; [left; exists (n + d)%nat; split; [lia|exact Y]|]. right. rewrite Nat.add_succ_r. lia. }
  assert (K : forall v n, (N <= n)%nat -> (r n <= v)%nat -> exists m, (N <= m)%nat /\ G m).
  { induction v as [|v IH]; intros n Hn Hv; destruct (H2 n Hn) as (m & Hm & [X|X]);
      try (exists m; split; [lia|exact X]); destruct (L (m - n)%nat n Hn) as [Y|Y]; try exact Y; replace (n + (m - n))%nat with m in Y by lia; [lia|].
    apply (IH (Datatypes.S m)); lia. }
  exact (K (r N) N ltac:(lia) ltac:(lia)).
Qed.
Lemma stays (P : nat -> Prop) N : P N -> (forall n, (N <= n)%nat -> P n -> P (Datatypes.S n)) -> forall n, (N <= n)%nat -> P n.
Proof. intros H0 H n Hn. induction Hn as [|n Hn IH]; [exact H0|apply H; assumption]. Qed.

Lemma set_lk_id l i x : nth_error l i = Some x -> set_lk l i x = l.
Proof. revert i; induction l as [|y l IH]; intros [|i] H; cbn in *; try discriminate; [injection H as ->; reflexivity|f_equal; auto]. Qed.

(** What a turn does that does something. *)
Definition moved (st : Z -> Z) (a : answer) (t : Z) (w w' : lkworld) (c : rcall) (V : Z) (c' : rcall) (V' : Z) : Prop :=
  match rc_pc c with
  | PTest | PAgain => exists v, V <= t /\ lookup (lk_msgs w) lock_at t = Some v /\ V' = t /\ c' = at_ c (if v =? -1 then POpen else PWhile) /\ lk_msgs w' = lk_msgs w
  | PDelay => exists v, V <= t /\ lookup (lk_msgs w) lock_at t = Some v /\ V' = t /\ c' = at_ c PAgain /\ lk_msgs w' = lk_msgs w
  | PLock => exists v, V <= t /\ lookup (lk_msgs w) lock_at t = Some v /\ V' = t /\ c' = at_ c (PRead v) /\ lk_msgs w' = lk_msgs w
  | PStore fd => V < t /\ lookup (lk_msgs w) lock_at t = None /\ V' = t /\ c' = at_ c PDelay /\ lk_msgs w' = (lock_at, t, fd) :: lk_msgs w
  | POpen => V' = V /\ lk_msgs w' = lk_msgs w /\ c' = at_ c (PStore (match an_open a with Some fd => Z.of_nat fd | None => -1 end))
  | PWhile => V' = V /\ lk_msgs w' = lk_msgs w /\ c' = at_ c (if 0 <? rc_n c then PLock else PRet 0)
  | PRead fd => V' = V /\ lk_msgs w' = lk_msgs w /\
      ((rc_pc c' = PLock /\ rc_n c' = rc_n c /\ (is_open (lk_open w) fd = false \/ an_read a = RErr)) \/
       (exists k, an_read a = RGive k /\ rc_pc c' = PWhile /\ rc_n c' = rc_n c - Z.max 0 (Z.min k (rc_n c))) \/ exists e, rc_pc c' = PFault e)
  | PRet _ | PFault _ => False
  end.
Lemma turn_cases st w i a t : lk_turn st (i, a, t) w = w \/
  exists c V c' V', nth_error (lk_calls w) i = Some (c, V) /\ nth_error (lk_calls (lk_turn st (i, a, t) w)) i = Some (c', V') /\
    (forall j, j <> i -> nth_error (lk_calls (lk_turn st (i, a, t) w)) j = nth_error (lk_calls w) j) /\
    (forall fd, In fd (lk_open w) -> In fd (lk_open (lk_turn st (i, a, t) w))) /\ moved st a t w (lk_turn st (i, a, t) w) c V c' V'.
Proof.
  unfold lk_turn. destruct (nth_error (lk_calls w) i) as [[c V]|] eqn:E; [|left; reflexivity]. unfold moved.
  assert (KEEP : forall x j, j <> i -> nth_error (set_lk (lk_calls w) i x) j = nth_error (lk_calls w) j) by (intros x j Hj; apply nth_setl_ne; congruence).
  assert (MINE : forall x, nth_error (set_lk (lk_calls w) i x) i = Some x) by (intros x; eapply nth_setl_eq; exact E).
  unfold rstep. destruct (rc_pc c) as [| |fd| | | | |fd|v|e] eqn:Ep; cbn [use_of].
  - destruct (Z.leb_spec V t); [|left; reflexivity]. destruct (lookup (lk_msgs w) lock_at t) as [v|]; [|left; reflexivity]. right. do 4 eexists. cbn [lk_calls lk_open lk_msgs]. rewrite Ep. eauto 12.
  - right. destruct (an_open a) as [f|]; do 4 eexists; cbn [lk_calls lk_open lk_msgs]; rewrite Ep; (split; [reflexivity|]); (split; [apply MINE|]); (split; [apply KEEP|]); (split; [intros; try right; assumption|auto]).
  - destruct (Z.ltb_spec V t); [|left; reflexivity]. destruct (lookup (lk_msgs w) lock_at t) as [v|]; [left; reflexivity|]. right. do 4 eexists. cbn [lk_calls lk_open lk_msgs]. rewrite Ep. eauto 12.
  - destruct (Z.leb_spec V t); [|left; reflexivity]. destruct (lookup (lk_msgs w) lock_at t) as [v|]; [|left; reflexivity]. right. do 4 eexists. cbn [lk_calls lk_open lk_msgs]. rewrite Ep. eauto 12.
  - destruct (Z.leb_spec V t); [|left; reflexivity]. destruct (lookup (lk_msgs w) lock_at t) as [v|]; [|left; reflexivity]. right. do 4 eexists. cbn [lk_calls lk_open lk_msgs]. rewrite Ep. eauto 12.
  - right. do 4 eexists. cbn [lk_calls lk_open lk_msgs]. rewrite Ep. eauto 12.
  - destruct (Z.leb_spec V t); [|left; reflexivity]. destruct (lookup (lk_msgs w) lock_at t) as [v|]; [|left; reflexivity]. right. do 4 eexists. cbn [lk_calls lk_open lk_msgs]. rewrite Ep. eauto 12.
  - right. destruct (is_open (lk_open w) fd) eqn:Eo; [destruct (an_read a) as [|k] eqn:Ea|].
    + do 4 eexists. cbn [lk_calls lk_open lk_msgs]. rewrite Ep. cbn [at_ rc_pc rc_n]. rewrite Eo. split; [reflexivity|]. split; [apply MINE|]. cbn. auto 12.
    + cbv zeta. destruct (put (lk_mem w) (rc_buf c + rc_count c) (ztab (Z.max 0 (Z.min k (rc_n c))) (fun i0 => st (lk_pos w + i0)))) as [m1 t1|e1].
      2:{ do 4 eexists. cbn [bind lk_calls lk_open lk_msgs]. rewrite Ep, Eo. split; [reflexivity|]. split; [apply MINE|]. cbn. eauto 12. }
      unfold i32. destruct ((-2147483648 <=? rc_count c + _) && _).
      2:{ do 4 eexists. cbn [bind lk_calls lk_open lk_msgs]. rewrite Ep, Eo. split; [reflexivity|]. split; [apply MINE|]. cbn. eauto 12. }
      destruct ((-2147483648 <=? rc_n c - _) && _).
      2:{ do 4 eexists. cbn [bind ret lk_calls lk_open lk_msgs]. rewrite Ep, Eo. split; [reflexivity|]. split; [apply MINE|]. cbn. eauto 12. }
      do 4 eexists. cbn [bind ret lk_calls lk_open lk_msgs]. rewrite Ep, Eo. split; [reflexivity|]. split; [apply MINE|]. cbn [rc_pc rc_n]. eauto 14.
    + do 4 eexists. cbn [lk_calls lk_open lk_msgs]. rewrite Ep. cbn [at_ rc_pc rc_n]. rewrite Eo. split; [reflexivity|]. split; [apply MINE|]. cbn. auto 12.
  - left. rewrite (set_lk_id _ _ _ E). destruct w; reflexivity.
  - left. rewrite (set_lk_id _ _ _ E). destruct w; reflexivity.
Qed.

(** How many messages for [lock] after V say -1, and whether the one at V does. *)
Definition bad_after (ms : list message) (V : Z) : nat :=
  length (filter (fun m => let '(b, u, v) := m in (b =? lock_at) && (v =? -1) && (V <? u)) ms).
Definition bad_at (ms : list message) (V : Z) : nat := match lookup ms lock_at V with Some v => if v =? -1 then 1 else 0 | None => 0 end.
Lemma bad_mono ms V V' : V <= V' -> (bad_after ms V' <= bad_after ms V)%nat.
Proof.
  intros H. unfold bad_after. induction ms as [|[[b u] v] ms IH]; [cbn; lia|]. cbn [filter].
  destruct ((b =? lock_at) && (v =? -1)); cbn [andb]; [|exact IH]. destruct (Z.ltb_spec V' u), (Z.ltb_spec V u); cbn [length]; lia.
Qed.
Lemma bad_less ms V V' : V < V' -> lookup ms lock_at V' = Some (-1) -> (bad_after ms V' < bad_after ms V)%nat.
Proof.
  intros H. unfold bad_after. induction ms as [|[[b u] v] ms IH]; [discriminate|]. cbn [lookup filter]. intros E. pose proof (bad_mono ms V V' ltac:(lia)) as M. unfold bad_after in M.
  destruct (Z.eqb_spec b lock_at) as [->|]; cbn [andb] in *; [|apply IH; exact E]. destruct (Z.eqb_spec u V') as [->|].
  - injection E as ->. cbn [Z.eqb Pos.eqb andb]. replace (V' <? V') with false by (symmetry; apply Z.ltb_ge; lia). replace (V <? V') with true by (symmetry; apply Z.ltb_lt; lia). cbn [length]. lia.
  - specialize (IH E). destruct (v =? -1); cbn [andb]; [|exact IH]. destruct (Z.ltb_spec V' u), (Z.ltb_spec V u); cbn [length]; lia.
Qed.
Lemma bad_add ms V t fd : fd <> -1 -> bad_after ((lock_at, t, fd) :: ms) V = bad_after ms V.
Proof. intros H. unfold bad_after. cbn [filter]. apply Z.eqb_neq in H. rewrite H, andb_false_r. reflexivity. Qed.
Lemma bad_at_le ms V : (bad_at ms V <= 1)%nat.
Proof. unfold bad_at. destruct (lookup ms lock_at V) as [v|]; [destruct (v =? -1)|]; lia. Qed.
Lemma bad_at_add ms V t fd : fd <> -1 -> (bad_at ((lock_at, t, fd) :: ms) V <= bad_at ms V)%nat.
Proof. intros H. unfold bad_at. rewrite lookup_add. apply Z.eqb_neq in H. destruct (t =? V); [rewrite H; lia|lia]. Qed.

(** How far a call is from the end of the part that opens the device (src/random/random.c:39-46). *)
Definition far (ms : list message) (x : rcall * Z) : nat :=
  let K := bad_after ms (snd x) in let b := bad_at ms (snd x) in
  match rc_pc (fst x) with
  | PTest => 5 * K + 5 | POpen => 5 * K + 4 | PStore _ => 5 * K + 3 | PDelay => 5 * K + 2 + 4 * b | PAgain => 5 * K + 1 + 4 * b
  | _ => 0
  end.
Definition out (p : rpc) : Prop := match p with PWhile | PLock | PRead _ | PRet _ => True | _ => False end.
Lemma far_same ms x t fd : fd <> -1 -> (far ((lock_at, t, fd) :: ms) x <= far ms x)%nat.
Proof.
  intros H. unfold far. rewrite (bad_add _ _ _ _ H). pose proof (bad_at_add ms (snd x) t fd H). destruct (rc_pc (fst x)); lia.
Qed.
(** ... and from its return. *)
Definition left_ (fds : list Z) (c : rcall) : nat :=
  Z.to_nat match rc_pc c with
  | PWhile => 4 * rc_n c + 1 | PLock => 4 * rc_n c - 1 | PRead fd => if is_open fds fd then 4 * rc_n c - 2 else 4 * rc_n c | _ => 0 end.

Section Fair.
Variables (st : Z -> Z) (mem0 : list Z) (pos0 : Z) (rqs : list (Z * Z)) (V0 : Z).
Variables (W : nat -> lkworld) (x : nat -> nat * answer * Z) (act : nat -> bool).
(** What follows is about the time before Over; where nothing is to end it, Over is never true. *)
Variable Over : nat -> Prop.
Hypothesis ED : forall n, Over n \/ ~ Over n.
Hypothesis EM : forall n, Over n -> Over (Datatypes.S n).
Notation lkinv := (lkinv st mem0 pos0 rqs V0).
Notation S := Datatypes.S.
Definition turned_by (n : nat) : Prop := W (S n) = lk_turn st (x n) (W n).
Hypothesis HI : forall n, exists T nv, lkinv T nv (W n).
Hypothesis HW : forall n, ~ Over (S n) -> W (S n) = W n \/ turned_by n.
Hypothesis HP : forall n i c V, ~ Over n -> act i = false -> nth_error (lk_calls (W n)) i = Some (c, V) -> rc_pc c = PTest.
Hypothesis HF : forall i n, act i = true -> (i < length rqs)%nat -> exists m, (n <= m)%nat /\
  (Over m \/ lk_returned (W m) i 0 \/ turned_by m /\ fst (fst (x m)) = i /\ W (S m) <> W m).
Variable n0 : nat.
Hypothesis HG : forall m, (n0 <= m)%nat -> succeeds (snd (fst (x m))).
Hypothesis HV : forall n u, lookup (lk_msgs (W n)) lock_at u <> None -> exists N, forall m c V, (N <= m)%nat -> ~ Over (S m) ->
  nth_error (lk_calls (W m)) (fst (fst (x m))) = Some (c, V) -> use_of (rc_pc c) = Loads -> W (S m) <> W m -> u <= snd (x m).
Lemma not_yet n : ~ Over (S n) -> ~ Over n.
Proof. intros H X. apply H, EM, X. Qed.
Lemma escaped n m : (n <= m)%nat -> Over n -> Over m.
Proof. intros H X. revert m H. apply (stays Over n X). intros k _. apply EM. Qed.

Lemma len_calls n : length (lk_calls (W n)) = length rqs.
Proof. destruct (HI n) as (T & nv & (_ & _ & (L & _) & _)). cbn [proj rw_calls] in L. rewrite map_length in L. exact L. Qed.
Lemma ok_call n i c V : nth_error (lk_calls (W n)) i = Some (c, V) -> pc_ok c /\ 0 <= rc_n c.
Proof.
  intros E. destruct (HI n) as (T & nv & (_ & _ & (L & _ & _ & HC & _) & _)).
  assert (E' : nth_error (rw_calls (proj (W n) nv)) i = Some c) by (apply nth_fst; eauto).
  destruct (calls_nth rqs (proj (W n) nv) i c L E') as (b & k & Hr). destruct (HC i b k c Hr E') as (_ & _ & H & _ & H'). auto.
Qed.
(** One moment to the next. *)
Lemma next n : ~ Over (S n) -> W (S n) = W n \/ exists c V c' V', let i := fst (fst (x n)) in
  nth_error (lk_calls (W n)) i = Some (c, V) /\ nth_error (lk_calls (W (S n))) i = Some (c', V') /\
  (forall j, j <> i -> nth_error (lk_calls (W (S n))) j = nth_error (lk_calls (W n)) j) /\
  (forall fd, In fd (lk_open (W n)) -> In fd (lk_open (W (S n)))) /\ moved st (snd (fst (x n))) (snd (x n)) (W n) (W (S n)) c V c' V' /\ act i = true.
Proof.
  intros NE. destruct (HW n NE) as [Q|Q]; [left; exact Q|]. unfold turned_by in Q. destruct (x n) as [[i a] t] eqn:Ex. cbn [fst snd]. destruct (turn_cases st (W n) i a t) as [H|(c & V & c' & V' & H1 & H2 & H3 & H4 & H5)].
  - left. congruence.
  - rewrite <- Q in *. right. exists c, V, c', V'. do 5 (split; [assumption|]). destruct (act i) eqn:Ea; [reflexivity|exfalso].
    pose proof (HP n i c V (not_yet n NE) Ea H1) as P1. pose proof (HP (S n) i c' V' NE Ea H2) as P2. unfold moved in H5. rewrite P1 in H5. destruct H5 as (v & _ & _ & _ & -> & _). cbn in P2. destruct (v =? -1); discriminate.
Qed.
Lemma some_call n i : (i < length rqs)%nat -> exists c V, nth_error (lk_calls (W n)) i = Some (c, V).
Proof. intros H. rewrite <- (len_calls n) in H. destruct (nth_error (lk_calls (W n)) i) as [[c V]|] eqn:E; [eauto|]. apply nth_error_None in E. lia. Qed.

(** 1. No call is about to store -1 any more. *)
Definition no_store (i n : nat) : Prop := forall c V, nth_error (lk_calls (W n)) i = Some (c, V) -> rc_pc c <> PStore (-1).
Lemma stay_good i n : ~ Over (S n) -> (n0 <= n)%nat -> no_store i n -> no_store i (S n).
Proof.
  intros NE Hn H c V E0. destruct (next n NE) as [Q|(d & U & d' & U' & D1 & D2 & D3 & _ & D5 & _)]; [rewrite Q in E0; eauto|]. cbv zeta in *.
  destruct (Nat.eq_dec i (fst (fst (x n)))) as [->|Hi]; [|rewrite D3 in E0 by exact Hi; eauto]. rewrite D2 in E0. injection E0 as <- <-.
  unfold moved in D5. destruct (rc_pc d) eqn:Ep; try contradiction.
  - destruct D5 as (v & _ & _ & _ & -> & _). cbn. destruct (v =? -1); discriminate.
  - destruct D5 as (_ & _ & ->). destruct (HG n Hn) as (Ho & _). destruct (an_open (snd (fst (x n)))); [|congruence]. cbn. intros X. injection X. lia.
  - destruct D5 as (_ & _ & _ & -> & _). discriminate.
  - destruct D5 as (v & _ & _ & _ & -> & _). discriminate.
  - destruct D5 as (v & _ & _ & _ & -> & _). cbn. destruct (v =? -1); discriminate.
  - destruct D5 as (_ & _ & ->). cbn. destruct (0 <? rc_n d); discriminate.
  - destruct D5 as (v & _ & _ & _ & -> & _). discriminate.
  - destruct D5 as (_ & _ & [(-> & _)|[(k & _ & -> & _)|(e & ->)]]); discriminate.
Qed.
Lemma good_from i : (i < length rqs)%nat -> exists N, forall n, (N <= n)%nat -> (n0 <= n)%nat /\ (Over n \/ no_store i n).
Proof.
  intros Hi. assert (G : exists n, (n0 <= n)%nat /\ (Over n \/ no_store i n)).
  { destruct (act i) eqn:Ea.
    2:{ exists n0. split; [lia|]. destruct (ED n0) as [X|X]; [left; exact X|right]. intros c V E0. rewrite (HP n0 i c V X Ea E0). discriminate. }
    destruct (HF i n0 Ea Hi) as (m & Hm & [X|[(c & V & E0 & Ep)|(_ & Ei & Hne)]]).
    - exists m. auto.
    - exists m. split; [exact Hm|]. right. intros c' V' E'. rewrite E0 in E'. injection E' as <- <-. rewrite Ep. discriminate.
    - destruct (ED (S m)) as [X|NE]; [exists (S m); split; [lia|left; exact X]|].
      destruct (next m NE) as [Q|(d & U & d' & U' & D1 & D2 & D3 & _ & D5 & _)]; [contradiction|]. cbv zeta in *. rewrite Ei in *.
      destruct (some_call m i Hi) as (c & V & E0). rewrite E0 in D1. injection D1 as <- <-.
      destruct (rc_pc c) as [| |fd| | | | |fd|v|e] eqn:Ep; try (exists m; split; [exact Hm|]; right; intros c' V' E'; rewrite E0 in E'; injection E' as <- <-; rewrite Ep; discriminate).
      exists (S m). split; [lia|]. right. intros c' V' E'. rewrite D2 in E'. injection E' as <- <-. unfold moved in D5. rewrite Ep in D5. destruct D5 as (_ & _ & _ & -> & _). discriminate. }
  destruct G as (N & HN & G). exists N. intros n Hn. split; [lia|]. revert n Hn. apply stays; [exact G|]. intros n Hn [X|X]; [left; apply EM, X|].
  destruct (ED (S n)) as [Y|Y]; [left; exact Y|right]. apply stay_good; [exact Y|lia|exact X].
Qed.
Lemma good_all : exists N, (n0 <= N)%nat /\ forall n, (N <= n)%nat -> ~ Over n -> forall i, (i < length rqs)%nat -> no_store i n.
Proof.
  destruct (all_eventually (length rqs) (fun i n => (n0 <= n)%nat /\ (Over n \/ no_store i n)) good_from) as (N & HN). exists (Nat.max n0 N). split; [lia|].
  intros n Hn NE i Hi. destruct (HN n ltac:(lia) i Hi) as (_ & [X|X]); [contradiction|exact X].
Qed.

(** 2. Every call gets out of the loop that opens the device. *)
Definition is_out (i n : nat) : Prop := exists c V, nth_error (lk_calls (W n)) i = Some (c, V) /\ out (rc_pc c).
Lemma stay_out i n : ~ Over (S n) -> is_out i n -> is_out i (S n).
Proof.
  intros NE (c & V & E0 & O). destruct (next n NE) as [Q|(d & U & d' & U' & D1 & D2 & D3 & _ & D5 & _)]; [unfold is_out; rewrite Q; eauto|]. cbv zeta in *.
  destruct (Nat.eq_dec i (fst (fst (x n)))) as [->|Hi]; [|unfold is_out; rewrite D3 by exact Hi; eauto]. rewrite E0 in D1. injection D1 as <- <-.
  exists d', U'. split; [exact D2|]. destruct (ok_call _ _ _ _ D2) as (Hok & _). unfold moved in D5. destruct (rc_pc c); try contradiction.
  - destruct D5 as (_ & _ & ->). cbn. destruct (0 <? rc_n c); exact I.
  - destruct D5 as (v & _ & _ & _ & -> & _). exact I.
  - destruct D5 as (_ & _ & [(-> & _)|[(k & _ & -> & _)|(e & X)]]); try exact I. unfold pc_ok in Hok. rewrite X in Hok. contradiction.
Qed.
Definition far_at (i n : nat) : nat := match nth_error (lk_calls (W n)) i with Some y => far (lk_msgs (W n)) y | None => 0 end.
Lemma msgs_next n c V c' V' : moved st (snd (fst (x n))) (snd (x n)) (W n) (W (S n)) c V c' V' -> rc_pc c <> PStore (-1) ->
  lk_msgs (W (S n)) = lk_msgs (W n) \/ exists t fd, fd <> -1 /\ rc_pc c = PStore fd /\ lk_msgs (W (S n)) = (lock_at, t, fd) :: lk_msgs (W n).
Proof.
  unfold moved. intros H Hne. destruct (rc_pc c); try contradiction; try (left; apply H); try (left; destruct H as (v & _ & _ & _ & _ & E); exact E).
  right. destruct H as (_ & _ & _ & _ & E). do 2 eexists. split; [|split; [reflexivity|exact E]]. congruence.
Qed.
Lemma far_step i n : ~ Over (S n) -> no_store (fst (fst (x n))) n -> (n0 <= n)%nat ->
  (is_out i n \/ (far_at i (S n) <= far_at i n)%nat) /\ (fst (fst (x n)) = i -> W (S n) <> W n -> is_out i n \/ (far_at i (S n) < far_at i n)%nat).
Proof.
  intros NE HS Hn0. destruct (next n NE) as [Q|(d & U & d' & U' & D1 & D2 & D3 & _ & D5 & _)]; [unfold far_at; rewrite Q; split; [right; lia|congruence]|]. cbv zeta in *.
  pose proof (HS d U D1) as Hst. pose proof (msgs_next n d U d' U' D5 Hst) as HM.
  destruct (Nat.eq_dec i (fst (fst (x n)))) as [Ei|Hi].
  2:{ split; [|congruence]. right. unfold far_at. rewrite D3 by exact Hi. destruct (nth_error (lk_calls (W n)) i) as [y|]; [|lia].
      destruct HM as [->|(t & fd & Hfd & _ & ->)]; [lia|]. apply far_same. exact Hfd. }
  subst i. assert (G : is_out (fst (fst (x n))) n \/ (far_at (fst (fst (x n))) (S n) < far_at (fst (fst (x n))) n)%nat); [|split; [destruct G; [left; assumption|right; lia]|intros _ _; exact G]].
  unfold far_at. rewrite D1, D2. unfold far. cbn [fst snd]. unfold moved in D5. destruct (rc_pc d) eqn:Ep; try contradiction;
    try (left; exists d, U; rewrite Ep; split; [exact D1|exact I]); right.
  - destruct D5 as (v & Ht & El & -> & -> & ->). cbn [at_ rc_pc]. pose proof (bad_mono (lk_msgs (W n)) U (snd (x n)) Ht). destruct (v =? -1); lia.
  - destruct D5 as (-> & -> & ->). cbn [at_ rc_pc]. lia.
  - destruct D5 as (Ht & El & -> & -> & ->). cbn [at_ rc_pc]. assert (Hfd : fd <> -1) by congruence. rewrite (bad_add _ _ _ _ Hfd). pose proof (bad_mono (lk_msgs (W n)) U (snd (x n)) ltac:(lia)).
    unfold bad_at. rewrite lookup_add, Z.eqb_refl. apply Z.eqb_neq in Hfd. rewrite Hfd. lia.
  - destruct D5 as (v & Ht & El & -> & -> & ->). cbn [at_ rc_pc]. destruct (Z.eq_dec U (snd (x n))) as [->|Hne]; [lia|].
    unfold bad_at at 1. rewrite El. destruct (Z.eqb_spec v (-1)) as [->|]; [pose proof (bad_less (lk_msgs (W n)) U (snd (x n)) ltac:(lia) El); lia|].
    pose proof (bad_mono (lk_msgs (W n)) U (snd (x n)) Ht). lia.
  - destruct D5 as (v & Ht & El & -> & -> & ->). cbn [at_ rc_pc]. destruct (Z.eqb_spec v (-1)) as [Ev|]; [|lia]. rewrite Ev in El.
    destruct (Z.eq_dec U (snd (x n))) as [->|Hne]; [unfold bad_at; rewrite El; cbn [Z.eqb Pos.eqb]; lia|].
    pose proof (bad_less (lk_msgs (W n)) U (snd (x n)) ltac:(lia) El). lia.
Qed.
Lemma out_from i : act i = true -> (i < length rqs)%nat -> exists N, forall n, (N <= n)%nat -> Over n \/ is_out i n.
Proof.
  intros Ha Hi. destruct good_all as (N & HN & G).
  assert (HX : forall n, (N <= n)%nat -> ~ Over (S n) -> no_store (fst (fst (x n))) n).
  { intros n Hn NE. destruct (lt_dec (fst (fst (x n))) (length rqs)) as [L|L]; [exact (G n Hn (not_yet n NE) _ L)|]. intros c V E0. exfalso. apply L. rewrite <- (len_calls n). apply nth_error_Some. congruence. }
  destruct (reaches (far_at i) (fun n => Over (S n) \/ is_out i n) N) as (M & HM & O).
  - intros n Hn. destruct (ED (S n)) as [X|NE]; [left; left; exact X|]. destruct (far_step i n NE (HX n Hn NE) ltac:(lia)) as ([A|A] & _); [left; right; exact A|right; exact A].
  - intros n Hn. destruct (HF i n Ha Hi) as (m & Hm & [X|[(c & V & E0 & Ep)|(_ & Ei & Hne)]]); exists m; (split; [exact Hm|]).
    + left. left. apply EM, X.
    + left. right. exists c, V. rewrite Ep. split; [exact E0|exact I].
    + destruct (ED (S m)) as [X|NE]; [left; left; exact X|]. destruct (far_step i m NE (HX m ltac:(lia) NE) ltac:(lia)) as (_ & A). destruct (A Ei Hne) as [B|B]; [left; right; exact B|right; exact B].
  - exists (S M). apply (stays (fun n => Over n \/ is_out i n)).
    + destruct (ED (S M)) as [X|NE]; [left; exact X|right]. destruct O as [X|X]; [contradiction|]. apply stay_out; assumption.
    + intros n _ [X|X]; [left; apply EM, X|]. destruct (ED (S n)) as [Y|Y]; [left; exact Y|right; apply stay_out; assumption].
Qed.
Lemma out_all : exists N, (n0 <= N)%nat /\ forall n, (N <= n)%nat -> ~ Over n -> forall i, (i < length rqs)%nat -> act i = true -> is_out i n.
Proof.
  destruct (all_eventually (length rqs) (fun i n => act i = true -> Over n \/ is_out i n)) as (N & HN).
  - intros i Hi. destruct (act i) eqn:Ea; [|exists 0%nat; discriminate]. destruct (out_from i Ea Hi) as (N & H). exists N. auto.
  - exists (Nat.max n0 N). split; [lia|]. intros n Hn NE i Hi Ha. destruct (HN n ltac:(lia) i Hi Ha) as [X|X]; [contradiction|exact X].
Qed.

(** 3. From then on the newest message is an open descriptor, and it is what every load takes after some time. *)
Lemma settled i : act i = true -> (i < length rqs)%nat -> (exists N, Over N) \/ exists N nv, (n0 <= N)%nat /\
  (forall n, (N <= n)%nat -> ~ Over n -> In nv (lk_open (W n))) /\ (forall n, (N <= n)%nat -> ~ Over n -> is_out i n) /\
  (forall n c V v, (N <= n)%nat -> ~ Over (S n) -> nth_error (lk_calls (W n)) (fst (fst (x n))) = Some (c, V) -> use_of (rc_pc c) = Loads -> W (S n) <> W n ->
     lookup (lk_msgs (W n)) lock_at (snd (x n)) = Some v -> v = nv).
Proof.
  intros Ha Hi. destruct out_all as (N & HN & O). destruct (ED N) as [X|NN]; [left; exists N; exact X|right]. destruct (HI N) as (T & nv & (M1 & M2 & _ & MV & VV & TU & _)).
  assert (NE : nv <> -1).
  { intros En. destruct (TU En) as [A|(j & c & V & E0 & Op & _)].
    - destruct (O N ltac:(lia) NN i Hi Ha) as (c & V & E0 & X). destruct (A i c V E0) as (Y & _). rewrite Y in X. exact X.
    - assert (Hj : (j < length rqs)%nat) by (rewrite <- (len_calls N); apply nth_error_Some; congruence). destruct (act j) eqn:Ej.
      + destruct (O N ltac:(lia) NN j Hj Ej) as (c' & V' & E' & X). rewrite E0 in E'. injection E' as <- <-. destruct (rc_pc c); contradiction.
      + pose proof (HP N j c V NN Ej E0) as Y. rewrite Y in Op. exact Op. }
  assert (IN : In nv (lk_open (W N))).
  { destruct (some_call N i Hi) as (c & V & E0). specialize (VV i c V E0). destruct (MV T nv ltac:(lia) M1); [contradiction|assumption]. }
  assert (MS : forall n, (N <= n)%nat -> Over n \/ lk_msgs (W n) = lk_msgs (W N) /\ In nv (lk_open (W n))).
  { apply stays; [auto|]. intros n Hn [X|(E1 & E2)]; [left; apply EM, X|]. destruct (ED (S n)) as [X|NX]; [left; exact X|right].
    destruct (next n NX) as [Q|(d & U & d' & U' & D1 & D2 & D3 & D4 & D5 & D6)]; [rewrite Q; auto|]. cbv zeta in *.
    split; [|auto]. rewrite <- E1. assert (Hj : (fst (fst (x n)) < length rqs)%nat) by (rewrite <- (len_calls n); apply nth_error_Some; congruence).
    destruct (O n Hn (not_yet n NX) _ Hj D6) as (c' & V' & E' & X). rewrite D1 in E'. injection E' as <- <-. unfold moved in D5. destruct (rc_pc d); try contradiction; try (apply D5); try (destruct D5 as (v0 & _ & _ & _ & _ & E0); exact E0). }
  destruct (HV N T ltac:(congruence)) as (N' & HN'). exists (Nat.max N N'), nv. split; [lia|]. split; [intros n Hn X; destruct (MS n ltac:(lia)) as [Y|(_ & Y)]; [contradiction|exact Y]|]. split; [intros n Hn X; apply O; try lia; assumption|].
  intros n c V v Hn NX E0 Eu Hne El. specialize (HN' n c V ltac:(lia) NX E0 Eu Hne). destruct (MS n ltac:(lia)) as [Y|(Em & _)]; [destruct (not_yet n NX Y)|]. rewrite Em in El.
  destruct (Z.eq_dec (snd (x n)) T) as [Et|]; [congruence|]. rewrite M2 in El by lia. discriminate.
Qed.

(** 4. Every call returns. *)
Definition left_at (i n : nat) : nat := match nth_error (lk_calls (W n)) i with Some (c, _) => left_ (lk_open (W n)) c | None => 0 end.
Lemma open_mono fds fds' fd : (forall f, In f fds -> In f fds') -> is_open fds fd = true -> is_open fds' fd = true.
Proof. intros H E. apply is_open_in. apply is_open_in in E. auto. Qed.
Theorem fair_one i : act i = true -> (i < length rqs)%nat -> exists N, forall n, (N <= n)%nat -> Over n \/ lk_returned (W n) i 0.
Proof.
  intros Ha Hi. destruct (settled i Ha Hi) as [(N & X)|(N & nv & HN & IN & O & LD)]; [exists N; intros n Hn; left; exact (escaped N n Hn X)|].
  assert (STEP : forall n, (N <= n)%nat -> ~ Over (S n) -> (lk_returned (W n) i 0 \/ (left_at i (S n) <= left_at i n)%nat) /\
    (fst (fst (x n)) = i -> W (S n) <> W n -> lk_returned (W n) i 0 \/ (left_at i (S n) < left_at i n)%nat)).
  { intros n Hn NE. destruct (next n NE) as [Q|(d & U & d' & U' & D1 & D2 & D3 & D4 & D5 & _)]; [unfold left_at; rewrite Q; split; [right; lia|congruence]|]. cbv zeta in *.
    destruct (Nat.eq_dec i (fst (fst (x n)))) as [Ei|Hne].
    2:{ split; [|congruence]. right. unfold left_at. rewrite D3 by exact Hne. destruct (nth_error (lk_calls (W n)) i) as [[c V]|]; [|lia]. unfold left_. destruct (rc_pc c); try lia.
        destruct (is_open (lk_open (W n)) fd) eqn:Eo; [rewrite (open_mono _ _ _ D4 Eo); lia|]. destruct (is_open (lk_open (W (S n))) fd); lia. }
    assert (G : lk_returned (W n) i 0 \/ (left_at i (S n) < left_at i n)%nat \/ W (S n) = W n).
    2:{ split; [destruct G as [G|[G|G]]; [left; exact G|right; lia|right; unfold left_at; rewrite G; lia]|]. intros _ X. destruct G as [G|[G|G]]; [left; exact G|right; exact G|contradiction]. }
    destruct (O n Hn (not_yet n NE)) as (c & V & E0 & Oc). rewrite <- Ei in D1, D2. rewrite E0 in D1. injection D1 as <- <-. destruct (ok_call _ _ _ _ E0) as (Hok & Hnn). destruct (ok_call _ _ _ _ D2) as (Hok' & Hnn').
    unfold left_at. rewrite E0, D2. unfold left_, moved, pc_ok in *. destruct (rc_pc c) as [| |fd| | | | |fd|v|e] eqn:Ep; try contradiction.
    - right. left. destruct D5 as (_ & _ & ->). cbn [at_ rc_pc rc_n]. destruct (Z.ltb_spec 0 (rc_n c)); cbn [rc_pc]; lia.
    - destruct D5 as (v & Ht & El & -> & -> & Em).
      destruct (HW n NE) as [Q|_]; [auto|]. assert (X : W (S n) <> W n).
      { intros Q. rewrite Q, E0 in D2. injection D2 as X _. apply (f_equal rc_pc) in X. rewrite Ep in X. discriminate X. }
      rewrite Ei in E0. pose proof (LD n c V v Hn NE E0 ltac:(rewrite Ep; reflexivity) X El) as ->. right. left. cbn [at_ rc_pc rc_n].
      replace (is_open (lk_open (W (S n))) nv) with true by (symmetry; apply is_open_in; apply IN; [lia|exact NE]). lia.
    - destruct D5 as (_ & _ & D5). right. left. destruct (HG n ltac:(lia)) as (_ & k & Ek & Hk). destruct D5 as [(P1 & P2 & P3)|[(k' & P1 & P2 & P3)|(e & P)]].
      + rewrite P1, P2. destruct P3 as [->|P3]; [lia|congruence].
      + rewrite P2, P3. rewrite Ek in P1. injection P1 as <-. destruct (is_open (lk_open (W n)) fd); lia.
      + rewrite P in Hok'. contradiction. }
  destruct (reaches (left_at i) (fun n => Over (S n) \/ lk_returned (W n) i 0) N) as (M & HM & R).
  - intros n Hn. destruct (ED (S n)) as [X|NE]; [left; left; exact X|]. destruct (STEP n Hn NE) as ([A|A] & _); [left; right; exact A|right; exact A].
  - intros n Hn. destruct (HF i n Ha Hi) as (m & Hm & [X|[R|(_ & Ei & Hne)]]); exists m; (split; [exact Hm|]); [left; left; apply EM, X|left; right; exact R|].
    destruct (ED (S m)) as [X|NE]; [left; left; exact X|]. destruct (STEP m ltac:(lia) NE) as (_ & A). destruct (A Ei Hne) as [B|B]; [left; right; exact B|right; exact B].
  - assert (KEEP : forall n, ~ Over (S n) -> lk_returned (W n) i 0 -> lk_returned (W (S n)) i 0).
    { intros n NE (c & V & E0 & Ep). destruct (next n NE) as [Q|(d & U & d' & U' & D1 & D2 & D3 & D4 & D5 & _)]; [rewrite Q; exists c, V; auto|]. cbv zeta in *.
      destruct (Nat.eq_dec i (fst (fst (x n)))) as [Ei|Hne]; [|exists c, V; rewrite D3 by exact Hne; auto]. rewrite <- Ei, E0 in D1. injection D1 as <- <-. unfold moved in D5. rewrite Ep in D5. contradiction. }
    exists (S M). apply (stays (fun n => Over n \/ lk_returned (W n) i 0)).
    + destruct (ED (S M)) as [X|NE]; [left; exact X|right]. destruct R as [X|X]; [contradiction|]. apply KEEP; assumption.
    + intros n _ [X|X]; [left; apply EM, X|]. destruct (ED (S n)) as [Y|Y]; [left; exact Y|right; apply KEEP; assumption].
Qed.
Theorem fair_all : exists N, forall n, (N <= n)%nat -> forall i, (i < length rqs)%nat -> act i = true -> Over n \/ lk_returned (W n) i 0.
Proof.
  apply (all_eventually (length rqs) (fun i n => act i = true -> Over n \/ lk_returned (W n) i 0)). intros i Hi. destruct (act i) eqn:Ea; [|exists 0%nat; discriminate].
  destruct (fair_one i Ea Hi) as (N & H). exists N. auto.
Qed.
End Fair.
