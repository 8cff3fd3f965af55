(** Simulation: seen from the arguments' memory, a run of RelaxedLib.v is a run of Relaxed.v with the
    random bytes given in advance; seen from random.c, it is one of RelaxedRandom.v. *)
From Verif Require RelaxedProofs.
From Verif Require Import CSem Params Macrify Kem PropKem Conc ConcProofs ConcKem Random ConcRandom ConcRandomProofs PropConcRandom ConcLib ConcLibProofs PropConcLib
  Relaxed RelaxedRandom PropRelaxedRandom RelaxedLib.

Lemma nth_yl_eq l i p q : nth_error l i = Some q -> nth_error (set_yl l i p) i = Some p.
Proof. revert i; induction l; intros [|i] H; cbn in *; try discriminate; auto. Qed.
Lemma nth_yl_ne l i j p : i <> j -> nth_error (set_yl l i p) j = nth_error l j.
Proof. revert i j; induction l; intros [|i] [|j] H; cbn; auto; try congruence. Qed.
Lemma length_yl l i p : length (set_yl l i p) = length l.
Proof. revert i. induction l; intros [|i]; cbn; auto. Qed.
Lemma set_rx_id {A} (l : list (prog A * view)) i x : nth_error l i = Some x -> set_rx l i x = l.
Proof. revert i; induction l as [|y l IH]; intros [|i] H; cbn in *; try discriminate; [injection H as ->; reflexivity|f_equal; auto]. Qed.
Lemma length_rx {A} (l : list (prog A * view)) i x : length (set_rx l i x) = length l.
Proof. revert i. induction l; intros [|i]; cbn; auto. Qed.

(** One access in a world with other threads. *)
Lemma turn_access {A} (w : rxworld A) i t p V : nth_error (rx_thr w) i = Some (p, V) ->
  rx_turn (i, t) w = let '(ms, p', V') := access (rx_len w) (rx_msgs w) p V t in mkrx (rx_len w) ms (set_rx (rx_thr w) i (p', V')).
Proof.
  intros E. assert (ID : w = mkrx (rx_len w) (rx_msgs w) (set_rx (rx_thr w) i (p, V))) by (rewrite (set_rx_id _ _ _ E); destruct w; reflexivity).
  unfold access, rx_turn. rewrite E. cbn [nth_error rx_thr rx_msgs rx_len].
  destruct p as [x|e|a k|a v k|k|v k]; cbn [rx_thr rx_msgs rx_len]; try exact ID; try (destruct ((0 <=? a) && (a <? rx_len w)); [|reflexivity]);
    try (destruct (rx_load (rx_msgs w) V _ t k) as [[q U]|]; cbn [rx_thr rx_msgs set_rx]; [reflexivity|exact ID]);
    try (destruct (rx_store (rx_msgs w) V _ t v k) as [[ms [q U]]|]; cbn [rx_thr rx_msgs set_rx]; [reflexivity|exact ID]).
Qed.
Lemma access_bind {A B} len ms (p : prog A) (f : A -> prog B) V t : (forall a, p <> Ret a) ->
  access len ms (pbind p f) V t = let '(ms', p', V') := access len ms p V t in (ms', pbind p' f, V').
Proof.
  intros H. unfold access, rx_turn. cbn [nth_error rx_thr rx_msgs rx_len].
  destruct p as [x|e|a k|a v k|k|v k]; cbn [pbind rx_thr rx_msgs rx_len]; try reflexivity; try (destruct (H x eq_refl)); try (destruct ((0 <=? a) && (a <? len)); [|reflexivity]);
    unfold rx_load, rx_store; repeat match goal with |- context [if ?b then _ else _] => destruct b | |- context [match lookup ?a ?b ?c with _ => _ end] => destruct (lookup a b c) end; reflexivity.
Qed.

(** What a turn of random.c does to the memory and to the calls. *)
Lemma lk_turn_mem st nv w i a t : lk_mem (lk_turn st (i, a, t) w) = lk_mem w \/ lk_mem (lk_turn st (i, a, t) w) = rw_mem (rturn st (i, a) (proj w nv)).
Proof.
  unfold lk_turn, rturn. cbn [fst snd proj rw_calls rw_mem rw_lock rw_open rw_pos]. rewrite nth_error_map. destruct (nth_error (lk_calls w) i) as [[c V]|]; [|auto]. cbn [option_map fst].
  unfold rstep. destruct (rc_pc c) eqn:Ep; cbn [use_of];
    try (destruct (V <=? t); [|auto]; destruct (lookup (lk_msgs w) lock_at t); [|auto]; left; reflexivity);
    try (destruct (V <? t); [|auto]; destruct (lookup (lk_msgs w) lock_at t); [auto|]; left; reflexivity);
    try (left; reflexivity).
  - left. destruct (an_open a); reflexivity.
  - right. destruct (if is_open (lk_open w) fd then an_read a else RErr) as [|k]; [reflexivity|]. cbv zeta. set (P := bind _ _). destruct P as [[[m1 cn] nn] tr|e]; reflexivity.
Qed.
Lemma lk_turn_calls st w i a t j : (j <> i \/ (exists c V v, nth_error (lk_calls w) j = Some (c, V) /\ rc_pc c = PRet v)) ->
  nth_error (lk_calls (lk_turn st (i, a, t) w)) j = nth_error (lk_calls w) j.
Proof.
  intros H. destruct (Nat.eq_dec j i) as [->|Hn].
  - destruct H as [H|(c & V & v & E & P)]; [congruence|]. unfold lk_turn. rewrite E, P. cbn [use_of]. unfold rstep. rewrite P. cbn [lk_calls]. eapply nth_setl_eq. exact E.
  - unfold lk_turn. destruct (nth_error (lk_calls w) i) as [[c V]|]; [|reflexivity].
    assert (G : forall v V' ms, nth_error (lk_calls (let '(c', mem, _, fds, pos) := rstep st a c (lk_mem w) v (lk_open w) (lk_pos w) in mklk mem ms fds pos (set_lk (lk_calls w) i (c', V')))) j = nth_error (lk_calls w) j).
    { intros v V' ms. destruct (rstep st a c (lk_mem w) v (lk_open w) (lk_pos w)) as [[[[c' m'] l'] f'] p']. cbn [lk_calls]. apply nth_setl_ne. congruence. }
    destruct (use_of (rc_pc c)); [destruct (V <=? t); [destruct (lookup (lk_msgs w) lock_at t); [apply G|reflexivity]|reflexivity]| |apply G].
    destruct (V <? t); [destruct (lookup (lk_msgs w) lock_at t); [reflexivity|apply G]|reflexivity].
Qed.
Lemma lk_turn_some st w i a t c V : nth_error (lk_calls w) i = Some (c, V) -> exists x, nth_error (lk_calls (lk_turn st (i, a, t) w)) i = Some x.
Proof.
  intros E. unfold lk_turn. rewrite E.
  assert (G : forall v V' ms, exists x, nth_error (lk_calls (let '(c', mem, _, fds, pos) := rstep st a c (lk_mem w) v (lk_open w) (lk_pos w) in mklk mem ms fds pos (set_lk (lk_calls w) i (c', V')))) i = Some x).
  { intros v V' ms. destruct (rstep st a c (lk_mem w) v (lk_open w) (lk_pos w)) as [[[[c' m'] l'] f'] p']. cbn [lk_calls]. eexists. eapply nth_setl_eq. exact E. }
  destruct (use_of (rc_pc c)); [destruct (V <=? t); [destruct (lookup (lk_msgs w) lock_at t); [apply G|eauto]|eauto]| |apply G].
  destruct (V <? t); [destruct (lookup (lk_msgs w) lock_at t); [eauto|apply G]|eauto].
Qed.

Section Sim.
Variables (C : config) (st : Z -> Z) (len : Z) (ms0 : list message) (V0 : view) (cs : list (Z * acall))
  (stk : list Z) (pos0 : Z) (rqs : list (Z * Z)) (T0 : Z) (r0 : lkworld).
Hypothesis HR : forall i a n, nth_error rqs i = Some (a, n) -> 0 <= n < 2147483648 /\ 0 <= a /\ a + n <= zlen stk.
Hypothesis HD : forall i j a n b m, i <> j -> nth_error rqs i = Some (a, n) -> nth_error rqs j = Some (b, m) -> a + n <= b \/ b + m <= a.
Hypothesis HL : length rqs = length cs.
Hypothesis S0 : lk_calls r0 = map (fun rq => (rcall_start rq, T0)) rqs.
Notation lkinv := (lkinv st stk pos0 rqs T0).

Definition ybuffer (w : ylworld) (i : nat) : list Z :=
  match nth_error rqs i with Some (b, n) => zslice (lk_mem (yl_rng w)) b n | None => [] end.
Definition yagrees (w : ylworld) (R : nat -> list Z) : Prop :=
  forall i mc p V, nth_error cs i = Some mc -> asks (snd mc) = true -> nth_error (yl_thr w) i = Some (After p, V) -> R i = ybuffer w i.
Definition ph_ok (ph : phase) (mc : Z * acall) (c : rcall) (rq : Z * Z) : Prop :=
  match ph with
  | Before q _ => asks (snd mc) = true /\ c = rcall_start rq /\ exists m, short m q
  | Asking _ => asks (snd mc) = true
  | After _ => if asks (snd mc) then rc_pc c = PRet 0 else c = rcall_start rq
  end.
Definition yphase_ok (w : ylworld) (i : nat) (mc : Z * acall) : Prop :=
  exists ph V c U rq, nth_error (yl_thr w) i = Some (ph, V) /\ nth_error (lk_calls (yl_rng w)) i = Some (c, U) /\ nth_error rqs i = Some rq /\ ph_ok ph mc c rq.
(** Thread by thread, the worlds of the two runs. *)
Definition same (R : nat -> list Z) (ths : list (phase * view)) (thr : list (prog Z * view)) : Prop :=
  length thr = length cs /\ forall i ph V x, nth_error ths i = Some (ph, V) -> nth_error thr i = Some x -> snd x = V /\ rel (R i) ph (fst x).
Definition first (R : nat -> list Z) : rxworld Z := mkrx len ms0 (map (fun p => (p, V0)) (programs C R cs)).
Definition ysim (s1 : list (nat * Z)) (w : ylworld) : Prop :=
  (exists T nv, lkinv T nv (yl_rng w)) /\ length (yl_thr w) = length cs /\ yl_len w = len /\
  (forall i mc, nth_error cs i = Some mc -> yphase_ok w i mc) /\
  forall R, yagrees w R -> exists thr, rx_exec s1 (first R) = mkrx len (yl_msgs w) thr /\ same R (yl_thr w) thr.

Lemma ybuffer_turn T nv w j a t i b n c U : lkinv T nv w -> nth_error rqs i = Some (b, n) ->
  nth_error (lk_calls w) i = Some (c, U) -> rc_pc c = PRet 0 -> zslice (lk_mem (lk_turn st (j, a, t) w)) b n = zslice (lk_mem w) b n.
Proof.
  intros (_ & _ & Q & _) Hr Hc Ep. destruct (lk_turn_mem st nv w j a t) as [-> | ->]; [reflexivity|].
  apply (buffer_turn st cs stk pos0 rqs HR HD HL (proj w nv) j a i b n c Q Hr); [apply nth_fst; eauto|exact Ep].
Qed.
(** A turn of the memory's machine. *)
Lemma same_turn R s1 w i t ph V p' V' ms' ph' : yl_len w = len ->
  (exists thr, rx_exec s1 (first R) = mkrx len (yl_msgs w) thr /\ same R (yl_thr w) thr) -> length (yl_thr w) = length cs -> nth_error (yl_thr w) i = Some (ph, V) ->
  (forall p, rel (R i) ph p -> access len (yl_msgs w) p V t = (ms', p', V')) -> rel (R i) ph' p' ->
  exists thr, rx_exec (s1 ++ [(i, t)]) (first R) = mkrx len ms' thr /\ same R (set_yl (yl_thr w) i (ph', V')) thr.
Proof.
  intros El (thr & E & L & Hrel) Lx Hi Hst Hr'. destruct (nth_error thr i) as [[p U]|] eqn:Ep.
  2:{ apply nth_error_None in Ep. assert (i < length cs)%nat by (rewrite <- Lx; apply nth_error_Some; congruence). lia. }
  destruct (Hrel i ph V (p, U) Hi Ep) as (EU & Hp). cbn [fst snd] in EU, Hp. subst U.
  exists (set_rx thr i (p', V')). split.
  { unfold rx_exec. rewrite fold_left_app. fold (rx_exec s1 (first R)). rewrite E. cbn [fold_left]. rewrite (turn_access _ i t p V) by exact Ep. cbn [rx_len rx_msgs rx_thr].
    rewrite (Hst p Hp). reflexivity. }
  split; [rewrite length_rx; exact L|].
  intros j ph2 V2 x H1 H2. destruct (Nat.eq_dec i j) as [<-|Hn].
  - rewrite (nth_yl_eq _ _ _ _ Hi) in H1. injection H1 as <- <-. rewrite (RelaxedProofs.nth_setrx_eq _ _ _ _ Ep) in H2. injection H2 as <-. auto.
  - rewrite nth_yl_ne in H1 by exact Hn. rewrite RelaxedProofs.nth_setrx_ne in H2 by exact Hn. eapply Hrel; eassumption.
Qed.
Lemma ph_move w i ph V ph' V' ms : nth_error (yl_thr w) i = Some (ph, V) ->
  (forall mc c rq, nth_error cs i = Some mc -> (exists U, nth_error (lk_calls (yl_rng w)) i = Some (c, U)) -> ph_ok ph mc c rq -> ph_ok ph' mc c rq) ->
  forall j mc, nth_error cs j = Some mc -> yphase_ok w j mc -> yphase_ok (mkyl (yl_len w) ms (set_yl (yl_thr w) i (ph', V')) (yl_rng w)) j mc.
Proof.
  intros Hi H j mc Hmc (ph0 & W0 & c & U & rq & H1 & H2 & H3 & H4). destruct (Nat.eq_dec i j) as [<-|Hn].
  - rewrite Hi in H1. injection H1 as <- <-. exists ph', V', c, U, rq. cbn [yl_thr yl_rng]. rewrite (nth_yl_eq _ _ _ _ Hi). eauto 10.
  - exists ph0, W0, c, U, rq. cbn [yl_thr yl_rng]. rewrite nth_yl_ne by exact Hn. auto.
Qed.
(** Agreement is inherited when the turn does not end a request. *)
Lemma agrees_back w i ph V ph' V' ms R : nth_error (yl_thr w) i = Some (ph, V) -> ((exists p, ph = After p) -> exists p, ph' = After p) ->
  yagrees (mkyl (yl_len w) ms (set_yl (yl_thr w) i (ph', V')) (yl_rng w)) R -> yagrees w R.
Proof.
  intros Hi HP HA j mcj p U Hj Ha Hp. destruct (Nat.eq_dec i j) as [<-|Hn].
  - rewrite Hi in Hp. injection Hp as -> ->. destruct HP as (p' & ->); [eauto|]. apply (HA i mcj p' V' Hj Ha). cbn [yl_thr]. apply (nth_yl_eq _ _ _ _ Hi).
  - apply (HA j mcj p U Hj Ha). cbn [yl_thr]. rewrite nth_yl_ne by exact Hn. exact Hp.
Qed.
Lemma short_access {A} m (p : prog A) ms V t ms' p' V' : short m p -> access len ms p V t = (ms', p', V') -> exists m', short m' p'.
Proof.
  intros Sp E. unfold access, rx_turn in E. cbn [nth_error rx_thr rx_msgs rx_len] in E. destruct Sp as [m x|m e|m ad k Hk]; cbn [rx_thr rx_msgs] in E.
  - injection E as <- <- <-. exists m. constructor.
  - injection E as <- <- <-. exists m. constructor.
  - destruct ((0 <=? ad) && (ad <? len)).
    + unfold rx_load in E. destruct (V ad <=? t); [destruct (lookup ms ad t) as [v|]|]; cbn [rx_thr rx_msgs set_rx] in E; injection E as <- <- <-; [exists m; apply Hk|eexists; constructor; exact Hk|eexists; constructor; exact Hk].
    + cbn [rx_thr rx_msgs set_rx] in E. injection E as <- <- <-. exists 0%nat. constructor.
Qed.

(** One turn. *)
Theorem ysim_turn s1 w x : ysim s1 w -> exists s1', ysim s1' (yl_turn st rqs x w).
Proof.
  intros ((T & nv & HI) & Lx & El & Hph & Hk). destruct x as [[i a] t]. unfold yl_turn.
  assert (SELF : ysim s1 w) by (split; [eauto|split; [exact Lx|split; [exact El|split; [exact Hph|exact Hk]]]]).
  destruct (nth_error (yl_thr w) i) as [[ph V]|] eqn:Hi; [|exists s1; exact SELF].
  assert (Hc : exists mc, nth_error cs i = Some mc).
  { assert (i < length cs)%nat by (rewrite <- Lx; apply nth_error_Some; congruence). destruct (nth_error cs i) eqn:E; eauto. apply nth_error_None in E. lia. }
  destruct Hc as (mc & Hmc). pose proof (Hph i mc Hmc) as (ph0 & V1 & c & U & rq & P1 & P2 & P3 & P4). rewrite Hi in P1. injection P1 as <- <-.
  assert (REST : forall s ms y, (forall j mcj, nth_error cs j = Some mcj -> yphase_ok (mkyl (yl_len w) ms (set_yl (yl_thr w) i y) (yl_rng w)) j mcj) ->
     (forall R, yagrees (mkyl (yl_len w) ms (set_yl (yl_thr w) i y) (yl_rng w)) R -> exists thr, rx_exec s (first R) = mkrx len ms thr /\ same R (set_yl (yl_thr w) i y) thr) ->
     ysim s (mkyl (yl_len w) ms (set_yl (yl_thr w) i y) (yl_rng w))).
  { intros s ms y A1 A2. split; [exists T, nv; exact HI|]. split; [cbn [yl_thr]; rewrite length_yl; exact Lx|]. split; [exact El|]. split; [exact A1|exact A2]. }
  destruct ph as [p k|k|p].
  - (* before *)
    assert (RET : forall x, p = Ret x -> ysim s1 (mkyl (yl_len w) (yl_msgs w) (set_yl (yl_thr w) i (Asking (k x), V)) (yl_rng w))).
    { intros x ->. apply REST.
      - intros j mcj Hj. apply (ph_move w i (Before (Ret x) k) V); auto. intros mc0 c0 rq0 _ _ (X & _). exact X.
      - intros R HA. destruct (Hk R) as (thr & E & L & Hrel).
        { eapply (agrees_back w i (Before (Ret x) k) V); [exact Hi|intros (q & X); discriminate|exact HA]. }
        exists thr. split; [exact E|]. split; [exact L|]. intros j ph W y H1 H2. destruct (Nat.eq_dec i j) as [<-|Hn].
        + rewrite (nth_yl_eq _ _ _ _ Hi) in H1. injection H1 as <- <-. exact (Hrel i _ _ y Hi H2).
        + rewrite nth_yl_ne in H1 by exact Hn. eapply Hrel; eassumption. }
    assert (STEP : (forall x, p <> Ret x) -> exists s1', ysim s1' (let '(ms, p', V') := access (yl_len w) (yl_msgs w) p V t in mkyl (yl_len w) ms (set_yl (yl_thr w) i (Before p' k, V')) (yl_rng w))).
    { intros Hnr. destruct (access (yl_len w) (yl_msgs w) p V t) as [[ms' p'] V'] eqn:Ea. rewrite El in Ea. exists (s1 ++ [(i, t)]). apply REST.
      - intros j mcj Hj. apply (ph_move w i (Before p k) V); auto. intros mc0 c0 rq0 _ _ (X1 & X2 & m & X3). split; [exact X1|]. split; [exact X2|]. exact (short_access m p _ _ _ _ _ _ X3 Ea).
      - intros R HA. apply (same_turn R s1 w i t (Before p k) V (pbind p' (fun x => k x (R i))) V' ms' (Before p' k)); try assumption; try reflexivity.
        + apply Hk. eapply (agrees_back w i (Before p k) V); [exact Hi|intros (q & X); discriminate|exact HA].
        + intros q ->. rewrite access_bind by exact Hnr. rewrite Ea. reflexivity. }
    destruct p as [x|e|ad kk|ad v kk|kk|v kk]; [exists s1; apply RET; reflexivity|..]; apply STEP; discriminate.
  - (* in randombytes *)
    rewrite P2, P3. destruct rq as [b n]. pose proof HI as (_ & _ & Q & _). pose proof Q as (_ & _ & _ & HC & _).
    assert (P2' : nth_error (rw_calls (proj (yl_rng w) nv)) i = Some c) by (apply nth_fst; eauto).
    destruct (HC i b n c P3 P2') as (_ & _ & _ & _ & Hpc). cbn [ph_ok] in P4.
    assert (RET : forall v, rc_pc c = PRet v -> ysim s1 (mkyl (yl_len w) (yl_msgs w) (set_yl (yl_thr w) i (After (k (zslice (lk_mem (yl_rng w)) b n)), V)) (yl_rng w))).
    { intros v Ev. unfold pc_ok in Hpc. rewrite Ev in Hpc. destruct Hpc as (-> & _). apply REST.
      - intros j mcj Hj. apply (ph_move w i (Asking k) V); auto. intros mc0 c0 rq0 _ (U0 & X) Y. cbn [ph_ok] in *. rewrite Y. rewrite P2 in X. injection X as <- _. exact Ev.
      - intros R HA. destruct (Hk R) as (thr & E & L & Hrel).
        { eapply (agrees_back w i (Asking k) V); [exact Hi|intros (q & X); discriminate|exact HA]. }
        exists thr. split; [exact E|]. split; [exact L|]. intros j ph W y H1 H2. destruct (Nat.eq_dec i j) as [<-|Hn].
        + rewrite (nth_yl_eq _ _ _ _ Hi) in H1. injection H1 as <- <-. destruct (Hrel i _ _ y Hi H2) as (Y1 & Y2). split; [exact Y1|]. cbn [rel] in *. rewrite Y2.
          rewrite (HA i mc _ V Hmc P4 (nth_yl_eq _ _ _ _ Hi)). unfold ybuffer. rewrite P3. reflexivity.
        + rewrite nth_yl_ne in H1 by exact Hn. eapply Hrel; eassumption. }
    assert (RUN : ysim s1 (mkyl (yl_len w) (yl_msgs w) (yl_thr w) (lk_turn st (i, a, t) (yl_rng w)))).
    { destruct (lk_turn_inv st stk pos0 rqs T0 HR HD T nv (yl_rng w) i a t HI) as (T' & nv' & HI' & _).
      split; [exists T', nv'; exact HI'|]. split; [exact Lx|]. split; [exact El|]. split.
      - intros j mcj Hj. destruct (Hph j mcj Hj) as (phj & Vj & cj & Uj & rqj & Q1 & Q2 & Q3 & Q4). destruct (Nat.eq_dec j i) as [->|Hn].
        + rewrite Hi in Q1. injection Q1 as <- <-. destruct (lk_turn_some st (yl_rng w) i a t cj Uj Q2) as ([c' U'] & X). exists (Asking k), V, c', U', rqj. cbn [yl_thr yl_rng]. auto.
        + exists phj, Vj, cj, Uj, rqj. cbn [yl_thr yl_rng]. rewrite lk_turn_calls by auto. auto.
      - intros R HA. apply Hk. intros j mcj p Vj Hj Ha Hp. rewrite (HA j mcj p Vj Hj Ha Hp). unfold ybuffer. cbn [yl_rng].
        destruct (Hph j mcj Hj) as (phj & Vj' & cj & Uj & [bj nj] & Q1 & Q2 & Q3 & Q4). rewrite Q3. rewrite Hp in Q1. injection Q1 as <- <-. cbn [ph_ok] in Q4. rewrite Ha in Q4.
        exact (ybuffer_turn T nv (yl_rng w) i a t j bj nj cj Uj HI Q3 Q2 Q4). }
    destruct (rc_pc c) eqn:Ec; try (exists s1; exact RUN).
    + exists s1. apply (RET v). reflexivity.
    + unfold pc_ok in Hpc. rewrite Ec in Hpc. contradiction.
  - (* after *)
    destruct (access (yl_len w) (yl_msgs w) p V t) as [[ms' p'] V'] eqn:Ea. rewrite El in Ea. exists (s1 ++ [(i, t)]). apply REST.
    + intros j mcj Hj. apply (ph_move w i (After p) V); auto.
    + intros R HA. apply (same_turn R s1 w i t (After p) V p' V' ms' (After p')); try assumption; try reflexivity.
      * apply Hk. apply (agrees_back w i (After p) V (After p') V' ms'); [exact Hi|eauto|exact HA].
      * intros q ->. exact Ea.
Qed.
Lemma ysim_start : (exists T nv, lkinv T nv r0) -> ysim [] (yl_start C len ms0 V0 cs r0).
Proof.
  intros H0. split; [exact H0|]. split; [apply map_length|]. split; [reflexivity|]. split.
  - intros i mc Hi. assert (Hr : exists rq, nth_error rqs i = Some rq).
    { assert (i < length rqs)%nat by (rewrite HL; apply nth_error_Some; congruence). destruct (nth_error rqs i) eqn:E; eauto. apply nth_error_None in E. lia. }
    destruct Hr as (rq & Hr). exists (start_thread C mc), V0, (rcall_start rq), T0, rq. unfold yl_start. cbn [yl_thr yl_rng]. rewrite S0, !nth_error_map, Hi, Hr.
    split; [reflexivity|]. split; [reflexivity|]. split; [reflexivity|]. destruct mc as [me [pk sk|ct ss pk|ss ct sk]]; cbn; auto.
    + split; [reflexivity|]. split; [reflexivity|]. exists 0%nat. constructor.
    + split; [reflexivity|]. split; [reflexivity|]. eexists. apply short_load.
  - intros R _. exists (map (fun p => (p, V0)) (programs C R cs)). split; [reflexivity|]. split.
    { rewrite map_length. unfold programs. clear. generalize 0%nat. induction cs; intros j; cbn; auto. }
    intros i ph V x H1 H2. unfold yl_start in H1. cbn [yl_thr] in H1. rewrite nth_error_map in H1. rewrite nth_error_map, nth_programs in H2. destruct (nth_error cs i) as [[me c]|]; [|discriminate].
    injection H1 as <- <-. injection H2 as <-. split; [reflexivity|]. destruct c; reflexivity.
Qed.
Lemma ysim_exec sched : forall s1 w, ysim s1 w -> exists s1', ysim s1' (yl_exec st rqs sched w).
Proof.
  induction sched as [|x s IH]; intros s1 w H; [exists s1; exact H|].
  destruct (ysim_turn s1 w x H) as (s1' & H'). cbn [yl_exec fold_left]. eapply IH, H'.
Qed.
End Sim.
