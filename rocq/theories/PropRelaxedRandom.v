(** Property C55: randombytes called by several threads on a machine with relaxed memory (Unix). *)
From Verif Require Import CSem Random PropKem ConcRandom ConcRandomProofs PropConcRandom Relaxed RelaxedRandom.

(** The world as in ConcRandom.v, with the value v of [lock]. *)
Definition proj (w : lkworld) (v : Z) : rworld := mkrw (lk_mem w) v (lk_open w) (lk_pos w) (map fst (lk_calls w)).

Lemma nth_setl_eq l i x y : nth_error l i = Some y -> nth_error (set_lk l i x) i = Some x.
Proof. revert i; induction l; intros [|i] H; cbn in *; try discriminate; auto. Qed.
Lemma nth_setl_ne l i j x : i <> j -> nth_error (set_lk l i x) j = nth_error l j.
Proof. revert i j; induction l; intros [|i] [|j] H; cbn; auto; try congruence. Qed.
Lemma map_setl l i c V : map fst (set_lk l i (c, V)) = set_call (map fst l) i c.
Proof. revert i; induction l as [|[d U] l IH]; intros [|i]; cbn; auto. f_equal. apply IH. Qed.
Lemma nth_fst (l : list (rcall * Z)) i c : nth_error (map fst l) i = Some c <-> exists V, nth_error l i = Some (c, V).
Proof.
  rewrite nth_error_map. destruct (nth_error l i) as [[d V]|]; cbn; split.
  - intros E. injection E as ->. eauto.
  - intros (U & E). injection E as -> _. reflexivity.
  - discriminate.
  - intros (U & E). discriminate.
Qed.

Section Inv.
Variables (st : Z -> Z) (mem0 : list Z) (pos0 : Z) (rqs : list (Z * Z)) (V0 : Z).
Hypothesis HR : forall i a n, nth_error rqs i = Some (a, n) -> 0 <= n < 2147483648 /\ 0 <= a /\ a + n <= zlen mem0.
Hypothesis HD : forall i j a n b m, i <> j -> nth_error rqs i = Some (a, n) -> nth_error rqs j = Some (b, m) -> a + n <= b \/ b + m <= a.

(** The newest message for [lock] is at T and has the value nv.  If it is -1, then no call has begun, or
    there is one in the loop that opens the device which knows of it. *)
Definition turned (w : lkworld) (T nv : Z) : Prop :=
  nv = -1 -> (forall i c V, nth_error (lk_calls w) i = Some (c, V) -> rc_pc c = PTest /\ V = T) \/
             exists i c V, nth_error (lk_calls w) i = Some (c, V) /\ opening (rc_pc c) /\ V = T.
Definition lkinv (T nv : Z) (w : lkworld) : Prop :=
  lookup (lk_msgs w) lock_at T = Some nv /\ (forall t, T < t -> lookup (lk_msgs w) lock_at t = None) /\
  rinv st mem0 pos0 rqs (proj w nv) /\
  (forall t v, V0 <= t -> lookup (lk_msgs w) lock_at t = Some v -> v = -1 \/ In v (lk_open w)) /\
  (forall i c V, nth_error (lk_calls w) i = Some (c, V) -> V0 <= V <= T) /\ turned w T nv /\
  (lk_calls w = [] \/ exists i c, nth_error (lk_calls w) i = Some (c, T)).

Lemma turned_opening w T nv : turned w T nv ->
  nv = -1 -> (forall i c, nth_error (map fst (lk_calls w)) i = Some c -> rc_pc c = PTest) \/
             exists i c, nth_error (map fst (lk_calls w)) i = Some c /\ opening (rc_pc c).
Proof.
  intros H E. destruct (H E) as [A|(i & c & V & A & B & _)]; [left|right].
  - intros i c Hc. apply nth_fst in Hc as (V & Hc). apply (A i c V Hc).
  - exists i, c. split; [apply nth_fst; eauto|exact B].
Qed.
Lemma lookup_add ms t v u : lookup ((lock_at, t, v) :: ms) lock_at u = if t =? u then Some v else lookup ms lock_at u.
Proof. cbn [lookup]. rewrite Z.eqb_refl. reflexivity. Qed.

Definition timely (w : lkworld) (i : nat) (T t : Z) : Prop :=
  forall c V, nth_error (lk_calls w) i = Some (c, V) -> t = T + match use_of (rc_pc c) with Stores _ => 1 | _ => 0 end.

Lemma lk_turn_inv T nv w i a t : lkinv T nv w -> exists T' nv', lkinv T' nv' (lk_turn st (i, a, t) w) /\
  (timely w i T t -> proj (lk_turn st (i, a, t) w) nv' = rturn st (i, a) (proj w nv)).
Proof.
  intros HI. pose proof HI as (M1 & M2 & Q & MV & VV & TU & KN). unfold lk_turn.
  assert (TRIV : ~ (timely w i T t /\ exists x, nth_error (lk_calls w) i = Some x) -> exists T' nv', lkinv T' nv' w /\ (timely w i T t -> proj w nv' = rturn st (i, a) (proj w nv))).
  { intros Hn. exists T, nv. split; [exact HI|]. intros Ht. unfold rturn. cbn [fst proj rw_calls]. destruct (nth_error (map fst (lk_calls w)) i) as [c|] eqn:E; [|reflexivity].
    apply nth_fst in E as (V & E). destruct Hn. eauto. }
  destruct (nth_error (lk_calls w) i) as [[c V]|] eqn:Ei; [|apply TRIV; intros (_ & x & X); discriminate].
  assert (Ei' : nth_error (rw_calls (proj w nv)) i = Some c) by (apply nth_fst; eauto).
  pose proof (VV i c V Ei) as HV.
  assert (RT : rturn st (i, a) (proj w nv) = let '(c', mem, lock, fds, pos) := rstep st a c (lk_mem w) nv (lk_open w) (lk_pos w) in mkrw mem lock fds pos (set_call (map fst (lk_calls w)) i c')).
  { unfold rturn. cbn [fst snd]. rewrite Ei'. reflexivity. }
  assert (KEEP : forall j, j <> i -> forall x, nth_error (set_lk (lk_calls w) i x) j = nth_error (lk_calls w) j) by (intros j Hj x; apply nth_setl_ne; congruence).
  assert (MINE : forall x, nth_error (set_lk (lk_calls w) i x) i = Some x) by (intros x; eapply nth_setl_eq; exact Ei).
  assert (KN' : exists j d, nth_error (lk_calls w) j = Some (d, T)) by (destruct KN as [KN|KN]; [rewrite KN in Ei; destruct i; discriminate|exact KN]).
  destruct (use_of (rc_pc c)) as [|fd|] eqn:EU.
  - (* a load *)
    destruct (Z.leb_spec V t) as [HVt|HVt]; [|apply TRIV; intros (Ht & _); specialize (Ht c V Ei); rewrite EU in Ht; lia].
    destruct (lookup (lk_msgs w) lock_at t) as [v|] eqn:El; [|apply TRIV; intros (Ht & _); specialize (Ht c V Ei); rewrite EU, Z.add_0_r in Ht; subst t; congruence].
    assert (HtT : t <= T) by (destruct (Z_le_gt_dec t T); [assumption|rewrite M2 in El by lia; discriminate]).
    set (p' := match rc_pc c with PDelay => PAgain | PLock => PRead v | _ => if v =? -1 then POpen else PWhile end).
    assert (ES : forall l, (forall q, rc_pc c = q -> l = v \/ rc_pc c = PDelay) -> rstep st a c (lk_mem w) l (lk_open w) (lk_pos w) = (at_ c p', lk_mem w, l, lk_open w, lk_pos w)).
    { intros l Hl. unfold rstep, p'. destruct (Hl (rc_pc c) eq_refl) as [->|E]; [destruct (rc_pc c); try discriminate EU; reflexivity|rewrite E; reflexivity]. }
    rewrite (ES v) by auto. exists T, nv.
    assert (TU' : turned (mklk (lk_mem w) (lk_msgs w) (lk_open w) (lk_pos w) (set_lk (lk_calls w) i (at_ c p', t))) T nv).
    { intros En. right. cbn [lk_calls]. destruct (TU En) as [HT|(j & d & U & Hd & Ho & EUd)].
      - destruct (HT i c V Ei) as (Ep & EV). assert (t = T) by lia. subst t. exists i, (at_ c p'), T. split; [apply MINE|]. split; [|reflexivity].
        rewrite M1 in El. injection El as <-. unfold p'. rewrite Ep, En. exact I.
      - destruct (Nat.eq_dec j i) as [->|Hji].
        + rewrite Ei in Hd. injection Hd as <- <-. assert (t = T) by lia. subst t. exists i, (at_ c p'), T. split; [apply MINE|]. split; [|reflexivity].
          rewrite M1 in El. injection El as <-. unfold p'. cbn [at_ rc_pc]. destruct (rc_pc c); try contradiction; try discriminate EU; rewrite ?En; exact I.
        + exists j, d, U. rewrite KEEP by exact Hji. auto. }
    split.
    + split; [exact M1|]. split; [exact M2|]. split; [|split; [exact MV|split; [|split; [exact TU'|]]]].
      * unfold proj. cbn [lk_mem lk_open lk_pos lk_calls]. rewrite map_setl.
        refine (rinv_quiet st mem0 pos0 rqs (proj w nv) i c (at_ c p') nv (lk_open w) Q Ei' eq_refl eq_refl eq_refl _ _ _).
        -- unfold pc_ok, p', at_. cbn [rc_pc rc_n]. destruct (rc_pc c); try discriminate EU; auto; destruct (v =? -1); auto.
        -- intros _. unfold pc_ok, p', at_. cbn [rc_pc rc_n]. destruct (rc_pc c); try discriminate EU; auto; destruct (v =? -1); auto.
        -- destruct Q as (_ & _ & _ & _ & (L1 & L2 & L3 & _) & _). cbn [proj rw_lock rw_open rw_calls] in L1, L2, L3. split; [exact L1|]. split; [exact L2|]. cbn [rw_calls rw_open rw_lock proj]. split.
           ++ intros j d f Hd E. apply nth_setc in Hd; [|intros X; apply nth_error_None in X; assert (Y : nth_error (map fst (lk_calls w)) i <> None) by (cbn [proj rw_calls] in Ei'; congruence); apply nth_error_None in X; contradiction].
              destruct Hd as [(<- & ->)|(_ & Hd)]; [|eauto]. exfalso. unfold p', at_ in E. cbn [rc_pc] in E. destruct (rc_pc c); try discriminate E; try discriminate EU; destruct (v =? -1); discriminate E.
           ++ intros En. pose proof (turned_opening _ _ _ TU' En) as X. cbn [lk_calls] in X. rewrite map_setl in X. exact X.
      * cbn [lk_calls]. intros j d U Hd. destruct (Nat.eq_dec j i) as [->|Hji]; [rewrite MINE in Hd; injection Hd as <- <-; lia|rewrite KEEP in Hd by exact Hji; eauto].
      * right. destruct KN' as (j & d & Hd). cbn [lk_calls]. destruct (Nat.eq_dec j i) as [->|Hji]; [|exists j, d; rewrite KEEP by exact Hji; exact Hd].
        rewrite Ei in Hd. injection Hd as _ ->. exists i. eexists. rewrite MINE. repeat f_equal. lia.
    + intros Ht. specialize (Ht c V Ei). rewrite EU, Z.add_0_r in Ht. subst t. rewrite M1 in El. injection El as <-.
      rewrite RT, (ES nv) by auto. unfold proj. cbn [lk_mem lk_open lk_pos lk_calls]. rewrite map_setl. reflexivity.
  - (* the store *)
    assert (Ep : rc_pc c = PStore fd) by (destruct (rc_pc c); try discriminate EU; injection EU as ->; reflexivity).
    destruct (Z.ltb_spec V t) as [HVt|HVt]; [|apply TRIV; intros (Ht & _); specialize (Ht c V Ei); rewrite EU in Ht; lia].
    destruct (lookup (lk_msgs w) lock_at t) as [v|] eqn:El; [apply TRIV; intros (Ht & _); specialize (Ht c V Ei); rewrite EU in Ht; rewrite M2 in El by lia; discriminate|].
    assert (HtT : t <> T) by (intros ->; congruence).
    assert (ES : forall l, rstep st a c (lk_mem w) l (lk_open w) (lk_pos w) = (at_ c PDelay, lk_mem w, fd, lk_open w, lk_pos w)) by (intros l; unfold rstep; rewrite Ep; reflexivity).
    rewrite ES. set (T' := Z.max T t). set (nv' := if T <? t then fd else nv). exists T', nv'.
    set (w' := mklk (lk_mem w) ((lock_at, t, fd) :: lk_msgs w) (lk_open w) (lk_pos w) (set_lk (lk_calls w) i (at_ c PDelay, t))).
    assert (TU' : turned w' T' nv').
    { intros En. right. unfold w', nv', T' in *. cbn [lk_calls] in *. destruct (Z.ltb_spec T t) as [Hlt|Hlt].
      - exists i, (at_ c PDelay), t. split; [apply MINE|]. split; [exact I|lia].
      - destruct (TU En) as [HT|(j & d & U & Hd & Ho & EUd)]; [destruct (HT i c V Ei); congruence|]. destruct (Nat.eq_dec j i) as [->|Hji].
        + rewrite Ei in Hd. injection Hd as <- <-. lia.
        + exists j, d, U. rewrite KEEP by exact Hji. split; [exact Hd|]. split; [exact Ho|lia]. }
    split.
    + split; [|split; [|split; [|split; [|split; [|split; [exact TU'|]]]]]].
      * unfold w', T', nv'. cbn [lk_msgs]. rewrite lookup_add. destruct (Z.ltb_spec T t), (Z.eqb_spec t (Z.max T t)); try lia; [reflexivity|]. replace (Z.max T t) with T by lia. exact M1.
      * intros u Hu. unfold w', T' in *. cbn [lk_msgs]. rewrite lookup_add. destruct (Z.eqb_spec t u); [lia|]. apply M2. lia.
      * unfold w', proj. cbn [lk_mem lk_open lk_pos lk_calls]. rewrite map_setl.
        refine (rinv_quiet st mem0 pos0 rqs (proj w nv) i c (at_ c PDelay) nv' (lk_open w) Q Ei' eq_refl eq_refl eq_refl (fun _ => I) (fun _ _ => I) _).
        destruct Q as (_ & _ & _ & _ & (L1 & L2 & L3 & _) & _). cbn [proj rw_lock rw_open rw_calls] in L1, L2, L3. split; [|split; [exact L2|]]; cbn [rw_calls rw_open rw_lock proj].
        -- unfold nv'. destruct (T <? t); [|exact L1]. exact (L3 i c fd Ei' Ep).
        -- split.
           ++ intros j d f Hd E. apply nth_setc in Hd; [|cbn [proj rw_calls] in Ei'; congruence]. destruct Hd as [(<- & ->)|(_ & Hd)]; [discriminate E|eauto].
           ++ intros En. pose proof (turned_opening _ _ _ TU' En) as X. unfold w' in X. cbn [lk_calls] in X. rewrite map_setl in X. exact X.
      * unfold w'. cbn [lk_msgs lk_open]. intros u v Hu. rewrite lookup_add. destruct (Z.eqb_spec t u); [|apply MV; exact Hu]. intros E. injection E as <-.
        destruct Q as (_ & _ & _ & _ & (_ & _ & L3 & _) & _). exact (L3 i c fd Ei' Ep).
      * unfold w', T'. cbn [lk_calls]. intros j d U Hd. destruct (Nat.eq_dec j i) as [->|Hji]; [rewrite MINE in Hd; injection Hd as <- <-; lia|rewrite KEEP in Hd by exact Hji; specialize (VV j d U Hd); lia].
      * right. unfold w', T'. cbn [lk_calls]. destruct (Z_lt_ge_dec T t); [exists i; eexists; rewrite MINE; repeat f_equal; lia|].
        destruct KN' as (j & d & Hd). destruct (Nat.eq_dec j i) as [->|Hji]; [rewrite Ei in Hd; injection Hd as _ ->; lia|]. exists j, d. rewrite KEEP by exact Hji. rewrite Hd. repeat f_equal. lia.
    + intros Ht. specialize (Ht c V Ei). rewrite EU in Ht. rewrite RT, ES. unfold proj, w', nv'. cbn [lk_mem lk_open lk_pos lk_calls]. rewrite map_setl.
      replace (T <? t) with true by (symmetry; apply Z.ltb_lt; lia). reflexivity.
  - (* neither *)
    assert (ES : exists c' mem fds pos, (forall l, rstep st a c (lk_mem w) l (lk_open w) (lk_pos w) = (c', mem, l, fds, pos)) /\ (forall f, In f (lk_open w) -> In f fds) /\ (opening (rc_pc c) -> opening (rc_pc c'))).
    { unfold rstep. destruct (rc_pc c) eqn:Ep; try discriminate EU.
      - destruct (an_open a) as [fd|]; do 4 eexists; (split; [intros l; reflexivity|]); cbn; auto.
      - do 4 eexists. split; [intros l; reflexivity|]. cbn. split; [auto|contradiction].
      - destruct (if is_open (lk_open w) fd then an_read a else RErr) as [|k].
        + do 4 eexists. split; [intros l; reflexivity|]. cbn. split; [auto|contradiction].
        + cbv zeta. set (P := bind _ _). destruct P as [[[m1 cn] nn] tr|e]; do 4 eexists; (split; [intros l; reflexivity|]); (split; [auto|cbn; contradiction]).
      - do 4 eexists. split; [intros l; reflexivity|]. split; [auto|rewrite Ep; auto].
      - do 4 eexists. split; [intros l; reflexivity|]. split; [auto|rewrite Ep; auto]. }
    destruct ES as (c' & mem & fds & pos & ES & Hfds & Hop). rewrite ES. exists T, nv.
    assert (EQ : proj (mklk mem (lk_msgs w) fds pos (set_lk (lk_calls w) i (c', V))) nv = rturn st (i, a) (proj w nv)).
    { rewrite RT, ES. unfold proj. cbn [lk_mem lk_open lk_pos lk_calls]. rewrite map_setl. reflexivity. }
    split; [|intros _; exact EQ]. split; [exact M1|]. split; [exact M2|]. split; [rewrite EQ; apply rinv_turn; assumption|]. cbn [lk_msgs lk_open lk_calls]. split; [|split; [|split]].
    + intros u v Hu El. destruct (MV u v Hu El); auto.
    + intros j d U Hd. destruct (Nat.eq_dec j i) as [->|Hji]; [rewrite MINE in Hd; injection Hd as <- <-; exact HV|rewrite KEEP in Hd by exact Hji; eauto].
    + intros En. right. cbn [lk_calls]. destruct (TU En) as [HT|(j & d & U & Hd & Ho & EUd)]; [destruct (HT i c V Ei) as (Ep & _); rewrite Ep in EU; discriminate|].
      destruct (Nat.eq_dec j i) as [->|Hji]; [rewrite Ei in Hd; injection Hd as <- <-; exists i, c', V; rewrite MINE; auto|exists j, d, U; rewrite KEEP by exact Hji; auto].
    + right. destruct KN' as (j & d & Hd). destruct (Nat.eq_dec j i) as [->|Hji]; [rewrite Ei in Hd; injection Hd as <- ->; exists i; eexists; apply MINE|exists j, d; rewrite KEEP by exact Hji; exact Hd].
Qed.
Lemma lk_exec_inv sched : forall T nv w, lkinv T nv w -> exists T' nv', lkinv T' nv' (lk_exec st sched w).
Proof.
  induction sched as [|[[i a] t] s IH]; intros T nv w HI; [exists T, nv; exact HI|]. cbn [lk_exec fold_left].
  destruct (lk_turn_inv T nv w i a t HI) as (T1 & nv1 & HI1 & _). exact (IH T1 nv1 _ HI1).
Qed.

(** From a moment on from which messages are seen at once, the machine is that of ConcRandom.v. *)
Lemma newest_spec ms : forall T t0, (forall t, T < t -> lookup ms lock_at t = None) -> lookup ms lock_at T <> None \/ t0 = T -> t0 <= T -> newest ms t0 = T.
Proof.
  assert (UP : forall ms T t0, (forall t, T < t -> lookup ms lock_at t = None) -> t0 <= T -> newest ms t0 <= T).
  { clear. induction ms as [|[[b u] v] ms IH]; intros T t0 H Ht; cbn [newest]; [exact Ht|].
    assert (H' : forall t, T < t -> lookup ms lock_at t = None) by (intros t Hlt; specialize (H t Hlt); cbn [lookup] in H; destruct ((b =? lock_at) && (u =? t)); [discriminate|exact H]).
    specialize (IH T t0 H' Ht). destruct (Z.eqb_spec b lock_at) as [->|]; [|exact IH]. destruct (Z_le_gt_dec u T); [lia|]. specialize (H u ltac:(lia)). cbn [lookup] in H. rewrite !Z.eqb_refl in H. discriminate. }
  assert (LO : forall ms T t0, lookup ms lock_at T <> None \/ t0 = T -> T <= newest ms t0).
  { clear. induction ms as [|[[b u] v] ms IH]; intros T t0 H; cbn [newest lookup] in *; [destruct H as [H| ->]; [congruence|lia]|].
    destruct (Z.eqb_spec b lock_at) as [->|]; cbn [andb] in H; [|apply IH; exact H]. destruct (Z.eqb_spec u T) as [->|]; [lia|]. specialize (IH T t0 H). lia. }
  intros T t0 H1 H2 H3. specialize (UP ms T t0 H1 H3). specialize (LO ms T t0 H2). lia.
Qed.
Lemma prompt_turn_inv T nv w ia : lkinv T nv w -> exists T' nv', lkinv T' nv' (prompt_turn st ia w) /\ proj (prompt_turn st ia w) nv' = rturn st ia (proj w nv).
Proof.
  intros HI. pose proof HI as (M1 & M2 & _ & _ & VV & _). destruct ia as [i a]. unfold prompt_turn. cbn [fst]. destruct (nth_error (lk_calls w) i) as [[c V]|] eqn:Ei.
  - assert (EN : newest (lk_msgs w) V = T) by (apply newest_spec; [exact M2|left; congruence|apply (VV i c V Ei)]). rewrite EN.
    destruct (lk_turn_inv T nv w i a (T + match use_of (rc_pc c) with Stores _ => 1 | _ => 0 end) HI) as (T' & nv' & HI' & E). exists T', nv'. split; [exact HI'|]. apply E.
    intros c' V' E'. rewrite Ei in E'. injection E' as <- <-. reflexivity.
  - exists T, nv. split; [exact HI|]. unfold rturn. cbn [fst proj rw_calls]. destruct (nth_error (map fst (lk_calls w)) i) as [c|] eqn:E; [|reflexivity].
    apply nth_fst in E as (V & E). congruence.
Qed.
Lemma prompt_exec_inv sched : forall T nv w, lkinv T nv w -> exists T' nv', lkinv T' nv' (prompt_exec st sched w) /\ proj (prompt_exec st sched w) nv' = rexec st sched (proj w nv).
Proof.
  induction sched as [|ia s IH]; intros T nv w HI; [exists T, nv; split; [exact HI|reflexivity]|]. cbn [prompt_exec rexec fold_left].
  destruct (prompt_turn_inv T nv w ia HI) as (T1 & nv1 & HI1 & E1). rewrite <- E1. exact (IH T1 nv1 _ HI1).
Qed.
End Inv.

(** ** The statements *)
(** The newest message for [lock] is at time T; it says [lock]. *)
Definition newest_is (ms : list message) (T lock : Z) : Prop :=
  lookup ms lock_at T = Some lock /\ forall t, T < t -> lookup ms lock_at t = None.
(** The threads are about to make the calls; they know what their starter knows. *)
Definition lk_start (mem : list Z) (ms : list message) (T : Z) (fds : list Z) (pos : Z) (rqs : list (Z * Z)) : lkworld :=
  mklk mem ms fds pos (map (fun rq => (rcall_start rq, T)) rqs).
(** Call i has returned v, or has run into undefined behaviour. *)
Definition lk_returned (w : lkworld) (i : nat) (v : Z) : Prop := exists c V, nth_error (lk_calls w) i = Some (c, V) /\ rc_pc c = PRet v.
Definition lk_faulted (w : lkworld) (i : nat) : Prop := exists c V e, nth_error (lk_calls w) i = Some (c, V) /\ rc_pc c = PFault e.
(** What one who knew T knows of [lock] after waiting for all threads. *)
Definition lk_joined (T : Z) (w : lkworld) : Z := fold_right Z.max T (map snd (lk_calls w)).

Lemma lk_start_inv st mem ms T lock fds pos rqs : requests_ok mem rqs -> device_ok lock fds -> newest_is ms T lock ->
  lkinv st mem pos rqs T T lock (lk_start mem ms T fds pos rqs).
Proof.
  intros Hq Hd (N1 & N2). assert (EC : map fst (lk_calls (lk_start mem ms T fds pos rqs)) = map rcall_start rqs) by (unfold lk_start; cbn [lk_calls]; rewrite map_map; reflexivity).
  assert (ST : forall i c V, nth_error (lk_calls (lk_start mem ms T fds pos rqs)) i = Some (c, V) -> rc_pc c = PTest /\ V = T).
  { unfold lk_start. cbn [lk_calls]. intros i c V E. rewrite nth_error_map in E. destruct (nth_error rqs i) as [rq|]; [|discriminate]. injection E as <- <-. split; reflexivity. }
  split; [exact N1|]. split; [exact N2|]. split; [|split; [|split; [|split]]].
  - unfold proj. rewrite EC. apply (start_inv st mem lock fds pos rqs Hq Hd).
  - intros t v Ht E. cbn [lk_start lk_msgs lk_open] in *. destruct (Z.eq_dec t T) as [->|]; [rewrite N1 in E; injection E as <-; apply Hd|rewrite N2 in E by lia; discriminate].
  - intros i c V E. destruct (ST i c V E) as (_ & ->). lia.
  - intros _. left. exact ST.
  - destruct rqs as [|rq rqs]; [left; reflexivity|right]. exists 0%nat, (rcall_start rq). reflexivity.
Qed.
Lemma lk_final st mem ms T lock fds pos rqs sched : requests_ok mem rqs -> device_ok lock fds -> newest_is ms T lock ->
  exists T' nv, lkinv st mem pos rqs T T' nv (lk_exec st sched (lk_start mem ms T fds pos rqs)).
Proof.
  intros Hq Hd HN. apply (lk_exec_inv st mem pos rqs T) with (T := T) (nv := lock); [| |apply lk_start_inv; assumption].
  - intros i a n H. destruct Hq as (Hq & _). destruct (Hq i a n H) as (? & ? & ?). lia.
  - intros i j a n b m H1 H2 H3. destruct Hq as (_ & Hq). exact (Hq i j a n b m H1 H2 H3).
Qed.
Lemma lk_returned_iff w nv i v : lk_returned w i v <-> has_returned (proj w nv) i v.
Proof.
  unfold lk_returned, has_returned, proj. cbn [rw_calls]. split.
  - intros (c & V & E & P). exists c. split; [apply nth_fst; eauto|exact P].
  - intros (c & E & P). apply nth_fst in E as (V & E). exists c, V. auto.
Qed.

(** ** Safety: every schedule, every choice of messages and times, every behaviour of the operating system *)
(** No call runs into undefined behaviour, and none returns anything but 0.  Every byte of the
    buffer of a call that has returned is a byte of the device's stream, in the stream's
    order; no byte of the stream is delivered twice, neither to two calls nor within one.
    Outside the buffers the memory is as before. *)
Theorem C55_threads : forall st mem ms T lock fds pos rqs sched, requests_ok mem rqs -> device_ok lock fds -> newest_is ms T lock ->
  let w := lk_exec st sched (lk_start mem ms T fds pos rqs) in
  (forall i, ~ lk_faulted w i) /\ (forall i v, lk_returned w i v -> v = 0) /\
  (exists src : nat -> Z -> Z,
    (forall i a n, nth_error rqs i = Some (a, n) -> lk_returned w i 0 ->
       forall k, 0 <= k < n -> znth (lk_mem w) (a + k) = st (src i k) /\ pos <= src i k < lk_pos w) /\
    (forall i a n, nth_error rqs i = Some (a, n) -> lk_returned w i 0 ->
       forall k l, 0 <= k < l -> l < n -> src i k < src i l) /\
    (forall i j a n b m, i <> j -> nth_error rqs i = Some (a, n) -> nth_error rqs j = Some (b, m) ->
       lk_returned w i 0 -> lk_returned w j 0 ->
       forall k l, 0 <= k < n -> 0 <= l < m -> src i k <> src j l)) /\
  zlen (lk_mem w) = zlen mem /\
  (forall x, (forall i a n, nth_error rqs i = Some (a, n) -> ~ a <= x < a + n) -> znth (lk_mem w) x = znth mem x).
Proof.
  intros st mem ms T lock fds pos rqs sched Hq Hd HN w. destruct (lk_final st mem ms T lock fds pos rqs sched Hq Hd HN) as (T' & nv & (_ & _ & Q & _)). fold w in Q.
  destruct (inv_facts st mem pos rqs _ Q) as (F1 & F2 & (src & S1 & S2 & S3) & F4 & F5). split; [|split; [|split; [|split]]].
  - intros i (c & V & e & E & P). apply (F1 i). exists c, e. split; [apply nth_fst; eauto|exact P].
  - intros i v H. apply (F2 i v). apply (lk_returned_iff w nv). exact H.
  - exists src. split; [|split].
    + intros i a n Hr Hret. apply (S1 i a n Hr). apply (lk_returned_iff w nv), Hret.
    + intros i a n Hr Hret. apply (S2 i a n Hr). apply (lk_returned_iff w nv), Hret.
    + intros i j a n b m Hij Hi Hj R1 R2. apply (S3 i j a n b m Hij Hi Hj); apply (lk_returned_iff w nv); assumption.
  - exact F4.
  - exact F5.
Qed.
Print Assumptions C55_threads.

(** When all calls have returned, one who has waited for their threads knows of the newest message for
    [lock], and it is an open descriptor: threads started from then on meet the hypotheses again. *)
Theorem C55_lock : forall st mem ms T lock fds pos rqs sched, requests_ok mem rqs -> device_ok lock fds -> newest_is ms T lock -> rqs <> [] ->
  let w := lk_exec st sched (lk_start mem ms T fds pos rqs) in
  (forall i, (i < length rqs)%nat -> lk_returned w i 0) ->
  exists fd, newest_is (lk_msgs w) (lk_joined T w) fd /\ fd <> -1 /\ In fd (lk_open w) /\ device_ok fd (lk_open w).
Proof.
  intros st mem ms T lock fds pos rqs sched Hq Hd HN Hne w Hall.
  destruct (lk_final st mem ms T lock fds pos rqs sched Hq Hd HN) as (T' & nv & (M1 & M2 & Q & _ & VV & TU & KN)). fold w in M1, M2, Q, VV, TU, KN.
  pose proof Q as (L & _ & _ & _ & (L1 & L2 & _ & _) & _). cbn [proj rw_calls rw_lock rw_open] in L, L1, L2. rewrite map_length in L.
  assert (H0 : (0 < length rqs)%nat) by (destruct rqs; [congruence|cbn; lia]).
  assert (Hl : nv <> -1).
  { intros En. destruct (TU En) as [HT|(i & c & V & Hc & Ho & _)].
    - destruct (Hall O H0) as (c & V & Hc & Ep). destruct (HT O c V Hc) as (X & _). congruence.
    - assert (Hi : (i < length rqs)%nat) by (rewrite <- L; apply nth_error_Some; congruence).
      destruct (Hall i Hi) as (c' & V' & Hc' & Ep). rewrite Hc in Hc'. injection Hc' as <- <-. rewrite Ep in Ho. exact Ho. }
  assert (EJ : lk_joined T w = T').
  { assert (TT : T <= T') by (destruct (Hall O H0) as (c & V & Hc & _); specialize (VV O c V Hc); lia).
    unfold lk_joined. apply Z.le_antisymm.
    - assert (G : forall l, (forall V, In V l -> V <= T') -> fold_right Z.max T l <= T') by (induction l as [|V l IH]; cbn; intros H; [exact TT|apply Z.max_lub; [apply H; left; reflexivity|apply IH; intros U HU; apply H; right; exact HU]]).
      apply G. intros V HV. apply in_map_iff in HV as ((c & U) & <- & HU). apply In_nth_error in HU as (i & HU). specialize (VV i c U HU). cbn. lia.
    - destruct KN as [KN|(i & c & Hc)]; [rewrite KN in L; cbn in L; lia|]. apply nth_error_In in Hc.
      assert (G : forall l V, In V l -> V <= fold_right Z.max T l) by (induction l as [|U l IH]; cbn; intros V HV; [contradiction|destruct HV as [->|HV]; [lia|specialize (IH V HV); lia]]).
      apply G. apply in_map_iff. exists (c, T'). split; [reflexivity|exact Hc]. }
  exists nv. rewrite EJ. split; [split; assumption|]. assert (In nv (lk_open w)) by (destruct L1; [contradiction|assumption]). split; [exact Hl|]. split; [assumption|]. split; [right; assumption|exact L2].
Qed.
Print Assumptions C55_lock.

(** ** Progress *)
(** Whatever happened before ([early] may contain any failures, and loads of any messages): from the
    moment on from which the threads see each other's stores, open() succeeds and read() gives at least one
    byte, every call has returned after 3 n + 11 rounds, where a round is a stretch of the schedule in which
    every call gets a turn and n is the longest request. *)
Theorem C55_returns : forall st mem ms T lock fds pos rqs early rounds, requests_ok mem rqs -> device_ok lock fds -> newest_is ms T lock ->
  (forall r, In r rounds -> round_of rqs r /\ forall ia, In ia r -> succeeds (snd ia)) ->
  (forall i a n, nth_error rqs i = Some (a, n) -> 3 * n + 11 <= Z.of_nat (length rounds)) ->
  forall i, (i < length rqs)%nat -> lk_returned (prompt_exec st (concat rounds) (lk_exec st early (lk_start mem ms T fds pos rqs))) i 0.
Proof.
  intros st mem ms T lock fds pos rqs early rounds Hq Hd HN Hr Hlen i Hi. destruct (lk_final st mem ms T lock fds pos rqs early Hq Hd HN) as (T1 & nv1 & HI).
  destruct (prompt_exec_inv st mem pos rqs T) with (sched := concat rounds) (T := T1) (nv := nv1) (w := lk_exec st early (lk_start mem ms T fds pos rqs)) as (T2 & nv2 & _ & E).
  - intros k a n H. destruct Hq as (Hq & _). destruct (Hq k a n H) as (? & ? & ?). lia.
  - intros k j a n b m H1 H2 H3. destruct Hq as (_ & Hq). exact (Hq k j a n b m H1 H2 H3).
  - exact HI.
  - apply (lk_returned_iff _ nv2). rewrite E. apply (returns_from st mem pos rqs); try assumption. apply HI.
Qed.
Print Assumptions C55_returns.

(** ** What relaxed memory costs *)
(** A thread may open the device again although it could know of a descriptor: the second call starts after
    the first has returned (nobody has waited for it), still sees -1, and opens a second descriptor. *)
Definition late_call : list (nat * answer * Z) :=
  let ok := {| an_open := Some 3%nat; an_read := RGive 1 |} in
  map (fun t => (0%nat, ok, t)) [0; 0; 1; 1; 1; 0; 1; 0; 0] ++ map (fun t => (1%nat, {| an_open := Some 4%nat; an_read := RGive 1 |}, t)) [0; 0].
Example C55_opens_again :
  let w1 := lk_exec (fun p => p) (firstn 9 late_call) (lk_start [0; 0] [(lock_at, 0, -1)] 0 [] 7 [(0, 1); (1, 1)]) in
  let w2 := lk_exec (fun p => p) late_call (lk_start [0; 0] [(lock_at, 0, -1)] 0 [] 7 [(0, 1); (1, 1)]) in
  lk_returned w1 0 0 /\ lk_open w1 = [3] /\ lk_open w2 = [4; 3] /\ lk_mem w2 = [7; 0].
Proof. cbv zeta. split; [eexists; eexists; split; [vm_compute; reflexivity|reflexivity]|vm_compute; repeat split; reflexivity]. Qed.

(** ** A case that meets the hypotheses: three calls (with [C37_rounds] for the rounds), the device not yet open. *)
Example C55_hyps : requests_ok (zrep 100 0) [(0, 32); (32, 16); (60, 40)] /\ device_ok (-1) [] /\ newest_is [(lock_at, 0, -1)] 0 (-1).
Proof.
  destruct C37_requests as (H1 & H2). split; [exact H1|]. split; [exact H2|]. split; [reflexivity|]. intros t Ht. cbn. destruct t; try reflexivity; lia.
Qed.
