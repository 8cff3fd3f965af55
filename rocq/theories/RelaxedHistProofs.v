(** Simulation: seen from the arguments' memory, a run of RelaxedHist.v is a run of Relaxed.v in which
    every thread is one program with its random bytes given in advance (ConcHistProofs.script); seen from
    random.c, it is one of RelaxedRandom.v. *)
From Verif Require RelaxedProofs.
From Verif Require Import CSem Params Macrify Kem Conc ConcProofs ConcKem Random ConcRandom ConcRandomProofs PropConcRandom ConcLib ConcLibProofs Process ConcHist ConcHistProofs
  Relaxed RelaxedRandom PropRelaxedRandom RelaxedLib RelaxedLibProofs RelaxedHist.

Lemma nth_yh_eq l i p q : nth_error l i = Some q -> nth_error (set_yh l i p) i = Some p.
Proof. revert i; induction l; intros [|i] H; cbn in *; try discriminate; auto. Qed.
Lemma nth_yh_ne l i j p : i <> j -> nth_error (set_yh l i p) j = nth_error l j.
Proof. revert i j; induction l; intros [|i] [|j] H; cbn; auto; try congruence. Qed.
Lemma length_yh l i p : length (set_yh l i p) = length l.
Proof. revert i. induction l; intros [|i]; cbn; auto. Qed.
Lemma set_yh_id l i y : nth_error l i = Some y -> set_yh l i y = l.
Proof. revert i; induction l as [|z l IH]; intros [|i] H; cbn in *; try discriminate; [injection H as ->; reflexivity|f_equal; auto]. Qed.

(** A message stays. *)
Lemma lk_turn_msgs st x w u : lookup (lk_msgs w) lock_at u <> None -> lookup (lk_msgs (lk_turn st x w)) lock_at u <> None.
Proof.
  destruct x as [[i a] t]. intros H. unfold lk_turn. destruct (nth_error (lk_calls w) i) as [[c V]|]; [|exact H].
  assert (G : forall v V' ms, lk_msgs (let '(c', mem, _, fds, pos) := rstep st a c (lk_mem w) v (lk_open w) (lk_pos w) in mklk mem ms fds pos (set_lk (lk_calls w) i (c', V'))) = ms).
  { intros v V' ms. destruct (rstep st a c (lk_mem w) v (lk_open w) (lk_pos w)) as [[[[c' m'] l'] f'] p']. reflexivity. }
  destruct (use_of (rc_pc c)) as [|fd|].
  - destruct (V <=? t); [|exact H]. destruct (lookup (lk_msgs w) lock_at t); [|exact H]. rewrite G. exact H.
  - destruct (V <? t); [|exact H]. destruct (lookup (lk_msgs w) lock_at t); [exact H|]. rewrite G. rewrite lookup_add. destruct (t =? u); [discriminate|exact H].
  - rewrite G. exact H.
Qed.

(** The same memory and the same calls. *)
Definition alike (r r' : lkworld) : Prop := lk_mem r' = lk_mem r /\ map fst (lk_calls r') = map fst (lk_calls r).
Lemma alike_id r : alike r r. Proof. split; reflexivity. Qed.
Lemma alike_aware r s T : alike r (aware r s T).
Proof.
  unfold aware. destruct (nth_error (lk_calls r) s) as [[c U]|] eqn:E; [|apply alike_id]. split; [reflexivity|]. cbn [lk_calls]. rewrite map_setl.
  assert (X : nth_error (map fst (lk_calls r)) s = Some c) by (apply nth_fst; eauto). revert X. generalize (map fst (lk_calls r)). intros l. revert s E. clear.
  induction l as [|y l IH]; intros [|s] E X; cbn in *; try discriminate; [injection X as ->; reflexivity|]. f_equal. destruct (lk_calls r) as [|z k] eqn:Ek; [discriminate|].
  clear IH. revert s E X. clear. intros s _. revert s. induction l as [|y l IH]; intros [|s] X; cbn in *; try discriminate; [injection X as ->; reflexivity|f_equal; auto].
Qed.
Lemma alike_returned r r' s v : alike r r' -> lk_returned r' s v <-> lk_returned r s v.
Proof.
  intros (_ & E). unfold lk_returned. split; intros (c & V & H & Ep).
  - assert (X : nth_error (map fst (lk_calls r')) s = Some c) by (apply nth_fst; eauto). rewrite E in X. apply nth_fst in X as (U & X). eauto.
  - assert (X : nth_error (map fst (lk_calls r)) s = Some c) by (apply nth_fst; eauto). rewrite <- E in X. apply nth_fst in X as (U & X). eauto.
Qed.
Lemma aware_inv st stk pos rqs T0 T nv r s L : L <= T -> lkinv st stk pos rqs T0 T nv r -> lkinv st stk pos rqs T0 T nv (aware r s L).
Proof.
  intros HL (M1 & M2 & Q & MV & VV & TU & KN). pose proof (alike_aware r s L) as (_ & EF).
  assert (PJ : proj (aware r s L) nv = proj r nv) by (unfold proj; rewrite EF; unfold aware; destruct (nth_error (lk_calls r) s) as [[c U]|]; reflexivity).
  assert (ES : lk_msgs (aware r s L) = lk_msgs r /\ lk_open (aware r s L) = lk_open r) by (unfold aware; destruct (nth_error (lk_calls r) s) as [[c U]|]; split; reflexivity).
  destruct ES as (E1 & E2).
  assert (VW : forall i c V, nth_error (lk_calls r) i = Some (c, V) -> exists V', nth_error (lk_calls (aware r s L)) i = Some (c, V') /\ V <= V' <= Z.max V L).
  { intros i c V H. unfold aware. destruct (nth_error (lk_calls r) s) as [[d U]|] eqn:E; [|exists V; split; [exact H|lia]]. cbn [lk_calls]. destruct (Nat.eq_dec s i) as [->|Hn].
    - rewrite (nth_setl_eq _ _ _ _ E). rewrite E in H. injection H as -> ->. exists (Z.max V L). split; [reflexivity|lia].
    - rewrite nth_setl_ne by exact Hn. exists V. split; [exact H|lia]. }
  assert (WV : forall i c V', nth_error (lk_calls (aware r s L)) i = Some (c, V') -> exists V, nth_error (lk_calls r) i = Some (c, V) /\ V <= V' <= Z.max V L).
  { intros i c V' H. assert (X : nth_error (map fst (lk_calls (aware r s L))) i = Some c) by (apply nth_fst; eauto). rewrite EF in X. apply nth_fst in X as (V & X).
    destruct (VW i c V X) as (V2 & Y & B). rewrite H in Y. injection Y as <-. eauto. }
  unfold lkinv. rewrite E1, E2, PJ. split; [exact M1|]. split; [exact M2|]. split; [exact Q|]. split; [exact MV|]. split; [|split].
  - intros i c V H. destruct (WV i c V H) as (V' & X & B). specialize (VV i c V' X). lia.
  - intros En. destruct (TU En) as [A|(i & c & V & A & B & EV)]; [left|right].
    + intros i c V H. destruct (WV i c V H) as (V' & X & Bd). destruct (A i c V' X) as (Y1 & Y2). split; [exact Y1|lia].
    + destruct (VW i c V A) as (V' & X & Bd). exists i, c, V'. split; [exact X|]. split; [exact B|lia].
  - destruct KN as [KN|(i & c & KN)]; [left; unfold aware; rewrite KN; destruct s; exact KN|right].
    destruct (VW i c T KN) as (V' & X & Bd). exists i, c. rewrite X. repeat f_equal. lia.
Qed.

Section Sim.
Variables (C : config) (st : Z -> Z) (len : Z) (ms0 : list message) (V0 : view) (ls : list (Z * list (nat * action)))
  (stk : list Z) (pos0 : Z) (rqs : list (Z * Z)) (T0 : Z) (r0 : lkworld).
Hypothesis HR : forall i a n, nth_error rqs i = Some (a, n) -> 0 <= n < 2147483648 /\ 0 <= a /\ a + n <= zlen stk.
Hypothesis HD : forall i j a n b m, i <> j -> nth_error rqs i = Some (a, n) -> nth_error rqs j = Some (b, m) -> a + n <= b \/ b + m <= a.
Hypothesis S0 : lk_calls r0 = map (fun rq => (rcall_start rq, T0)) rqs.
Hypothesis HSL : forall i ml s a, nth_error ls i = Some ml -> In (s, a) (snd ml) -> exists rq, nth_error rqs s = Some rq.
Notation lkinv := (lkinv st stk pos0 rqs T0).
Notation rel := (rel C).

Definition yslot (r : lkworld) (s : nat) : list Z :=
  match nth_error rqs s with Some (b, n) => zslice (lk_mem r) b n | None => [] end.
Definition hagrees (r : lkworld) (R : nat -> list Z) : Prop := forall s, lk_returned r s 0 -> R s = yslot r s.
Definition yok (r : lkworld) (ml : Z * list (nat * action)) (t : hthread) : Prop :=
  t_me t = fst ml /\ exists done, length done = length (t_codes t) /\
    (forall s a, In (s, a) done -> asks_a a = true -> lk_returned r s 0) /\
    match t_now t with
    | None => snd ml = done ++ t_left t
    | Some (s, ph) => exists a, snd ml = done ++ (s, a) :: t_left t /\
        match ph with After _ => asks_a a = true -> lk_returned r s 0 | _ => asks_a a = true end
    end.
(** A call of randombytes in progress belongs to a thread. *)
Definition ybusy (w : yhworld) : Prop := forall s c U rq, nth_error (lk_calls (yh_rng w)) s = Some (c, U) -> nth_error rqs s = Some rq ->
  c = rcall_start rq \/ rc_pc c = PRet 0 \/ exists i h V T k, nth_error (yh_thr w) i = Some (h, V, T) /\ t_now h = Some (s, Asking k).
(** Thread by thread, the worlds of the two runs. *)
Definition hsame (R : nat -> list Z) (ths : list (hthread * view * Z)) (thr : list (prog (list Z) * view)) : Prop :=
  length thr = length ls /\ forall i h V T x, nth_error ths i = Some (h, V, T) -> nth_error thr i = Some x -> snd x = V /\ rel R h (fst x).
Definition hfirst (R : nat -> list Z) : rxworld (list Z) := mkrx len ms0 (map (fun p => (p, V0)) (scripts C R ls)).
Definition known (w : yhworld) (T : Z) : Prop := forall i h V U, nth_error (yh_thr w) i = Some (h, V, U) -> T0 <= U <= T.
Definition hsim (s1 : list (nat * Z)) (w : yhworld) : Prop :=
  (exists T nv, lkinv T nv (yh_rng w) /\ known w T) /\ length (yh_thr w) = length ls /\ yh_len w = len /\
  (forall i ml h V U, nth_error ls i = Some ml -> nth_error (yh_thr w) i = Some (h, V, U) -> yok (yh_rng w) ml h) /\
  ybusy w /\
  forall R, hagrees (yh_rng w) R -> exists thr, rx_exec s1 (hfirst R) = mkrx len (yh_msgs w) thr /\ hsame R (yh_thr w) thr.

Lemma returned_lk r j a t s : lk_returned r s 0 -> lk_returned (lk_turn st (j, a, t) r) s 0.
Proof. intros (c & V & Hc & Ep). exists c, V. rewrite lk_turn_calls; [auto|]. right. eauto. Qed.
Lemma slot_lk T nv r j a t s : lkinv T nv r -> lk_returned r s 0 -> yslot (lk_turn st (j, a, t) r) s = yslot r s.
Proof.
  intros HI (c & V & Hc & Ep). unfold yslot. destruct (nth_error rqs s) as [[b n]|] eqn:Er; [|reflexivity].
  refine (ybuffer_turn st (map (fun _ => (0, ConcLib.ADec 0 0 0)) rqs) stk pos0 rqs T0 HR HD _ T nv r j a t s b n c V HI Er Hc Ep). now rewrite map_length.
Qed.
Lemma agrees_lk T nv r j a t R : lkinv T nv r -> hagrees (lk_turn st (j, a, t) r) R -> hagrees r R.
Proof. intros HI H s Hs. rewrite (H s (returned_lk r j a t s Hs)). eapply slot_lk; eassumption. Qed.
Lemma agrees_alike r r' R : alike r r' -> hagrees r' R -> hagrees r R.
Proof. intros HA H s Hs. rewrite (H s (proj2 (alike_returned r r' s 0 HA) Hs)). unfold yslot. destruct HA as (-> & _). reflexivity. Qed.
Lemma yok_alike r r' ml t : alike r r' -> yok r ml t -> yok r' ml t.
Proof.
  intros HA (E & done & L & Hd & Hn). split; [exact E|]. exists done. split; [exact L|]. split; [intros s a H1 H2; apply (alike_returned r r' s 0 HA); eauto|].
  destruct (t_now t) as [[s ph]|]; [|exact Hn]. destruct Hn as (a & H1 & H2). exists a. split; [exact H1|]. destruct ph; try exact H2. intros H3. apply (alike_returned r r' s 0 HA). auto.
Qed.

(** A turn that changes thread i only, without an access to the memory. *)
Lemma hsim_quiet s1 w i h V U h' U' r' : hsim s1 w -> nth_error (yh_thr w) i = Some (h, V, U) -> alike (yh_rng w) r' ->
  (forall T nv, lkinv T nv (yh_rng w) -> T0 <= U <= T -> lkinv T nv r' /\ T0 <= U' <= T) ->
  (forall ml, nth_error ls i = Some ml -> yok (yh_rng w) ml h -> yok (yh_rng w) ml h') ->
  (forall s k, t_now h = Some (s, Asking k) -> lk_returned (yh_rng w) s 0) ->
  (forall R p, hagrees (yh_rng w) R -> rel R h p -> rel R h' p) ->
  hsim s1 (mkyh (yh_len w) (yh_msgs w) (set_yh (yh_thr w) i (h', V, U')) r').
Proof.
  intros ((T & nv & HI & HK) & Lx & El & Ht & Hb & Hk) Hi HA HT Hok Hask Hrel. split; [|split; [cbn [yh_thr]; now rewrite length_yh|split; [exact El|split; [|split]]]].
  - destruct (HT T nv HI (HK _ _ _ _ Hi)) as (HI' & HU). exists T, nv. split; [exact HI'|]. intros j h2 V2 U2 Hj. cbn [yh_thr] in Hj. destruct (Nat.eq_dec i j) as [<-|Hn].
    + rewrite (nth_yh_eq _ _ _ _ Hi) in Hj. injection Hj as _ _ <-. exact HU.
    + rewrite nth_yh_ne in Hj by exact Hn. eapply HK, Hj.
  - intros j ml h2 V2 U2 Hml Hj. cbn [yh_thr yh_rng] in *. apply (yok_alike (yh_rng w)); [exact HA|]. destruct (Nat.eq_dec i j) as [<-|Hn].
    + rewrite (nth_yh_eq _ _ _ _ Hi) in Hj. injection Hj as <- _ _. apply (Hok ml Hml), (Ht i ml h V U Hml Hi).
    + rewrite nth_yh_ne in Hj by exact Hn. eapply Ht; eassumption.
  - intros s c W rq Hc Hq. cbn [yh_rng yh_thr] in *. assert (X : nth_error (map fst (lk_calls r')) s = Some c) by (apply nth_fst; eauto). destruct HA as (_ & EF). rewrite EF in X. apply nth_fst in X as (W' & X).
    destruct (Hb s c W' rq X Hq) as [H|[H|(j & h2 & V2 & U2 & k & Hj & Hn)]]; [auto|auto|].
    destruct (Nat.eq_dec i j) as [<-|Hij].
    + rewrite Hi in Hj. injection Hj as <- <- <-. destruct (Hask s k Hn) as (c' & W2 & Hc' & Ep). rewrite X in Hc'. injection Hc' as <- _. auto.
    + right; right. exists j, h2, V2, U2, k. rewrite nth_yh_ne by exact Hij. auto.
  - cbn [yh_rng yh_thr yh_msgs]. intros R HAR. apply (agrees_alike _ _ _ HA) in HAR. destruct (Hk R HAR) as (thr & E & L & H). exists thr. split; [exact E|]. split; [exact L|].
    intros j h2 V2 U2 x Hj Hx. destruct (Nat.eq_dec i j) as [<-|Hn].
    + rewrite (nth_yh_eq _ _ _ _ Hi) in Hj. injection Hj as <- <- _. destruct (H i h V U x Hi Hx) as (Y1 & Y2). split; [exact Y1|]. apply (Hrel R (fst x) HAR Y2).
    + rewrite nth_yh_ne in Hj by exact Hn. eapply H; eassumption.
Qed.
(** A turn in which thread i accesses the memory. *)
Lemma hsim_act s1 w i h V U h' V' t (pp : (nat -> list Z) -> prog (list Z)) ms' : hsim s1 w -> nth_error (yh_thr w) i = Some (h, V, U) ->
  (forall ml, nth_error ls i = Some ml -> yok (yh_rng w) ml h -> yok (yh_rng w) ml h') ->
  (forall s k, t_now h <> Some (s, Asking k)) ->
  (forall R p, rel R h p -> access len (yh_msgs w) p V t = (ms', pp R, V')) -> (forall R, rel R h' (pp R)) ->
  hsim (s1 ++ [(i, t)]) (mkyh (yh_len w) ms' (set_yh (yh_thr w) i (h', V', U)) (yh_rng w)).
Proof.
  intros ((T & nv & HI & HK) & Lx & El & Ht & Hb & Hk) Hi Hok Hask Hst Hrel. split; [|split; [cbn [yh_thr]; now rewrite length_yh|split; [exact El|split; [|split]]]].
  - exists T, nv. split; [exact HI|]. intros j h2 V2 U2 Hj. cbn [yh_thr] in Hj. destruct (Nat.eq_dec i j) as [<-|Hn].
    + rewrite (nth_yh_eq _ _ _ _ Hi) in Hj. injection Hj as _ _ <-. eapply HK, Hi.
    + rewrite nth_yh_ne in Hj by exact Hn. eapply HK, Hj.
  - intros j ml h2 V2 U2 Hml Hj. cbn [yh_thr yh_rng] in *. destruct (Nat.eq_dec i j) as [<-|Hn].
    + rewrite (nth_yh_eq _ _ _ _ Hi) in Hj. injection Hj as <- _ _. apply (Hok ml Hml), (Ht i ml h V U Hml Hi).
    + rewrite nth_yh_ne in Hj by exact Hn. eapply Ht; eassumption.
  - intros s c W rq Hc Hq. cbn [yh_rng yh_thr] in *. destruct (Hb s c W rq Hc Hq) as [H|[H|(j & h2 & V2 & U2 & k & Hj & Hn)]]; [auto|auto|].
    destruct (Nat.eq_dec i j) as [<-|Hij]; [rewrite Hi in Hj; injection Hj as <- <- <-; destruct (Hask s k Hn)|].
    right; right. exists j, h2, V2, U2, k. rewrite nth_yh_ne by exact Hij. auto.
  - cbn [yh_rng yh_thr yh_msgs]. intros R HA. destruct (Hk R HA) as (thr & E & L & H). destruct (nth_error thr i) as [[p W]|] eqn:Ep.
    2:{ apply nth_error_None in Ep. assert (i < length ls)%nat by (rewrite <- Lx; apply nth_error_Some; congruence). lia. }
    destruct (H i h V U (p, W) Hi Ep) as (EU & Hp). cbn [fst snd] in EU, Hp. subst W.
    exists (set_rx thr i (pp R, V')). split.
    { unfold rx_exec. rewrite fold_left_app. fold (rx_exec s1 (hfirst R)). rewrite E. cbn [fold_left]. rewrite (turn_access _ i t p V) by exact Ep. cbn [rx_len rx_msgs rx_thr].
      rewrite (Hst R p Hp). reflexivity. }
    split; [rewrite length_rx; exact L|].
    intros j h2 V2 U2 x Hj Hx. destruct (Nat.eq_dec i j) as [<-|Hn].
    + rewrite (nth_yh_eq _ _ _ _ Hi) in Hj. injection Hj as <- <- _. rewrite (RelaxedProofs.nth_setrx_eq _ _ _ _ Ep) in Hx. injection Hx as <-. split; [reflexivity|apply Hrel].
    + rewrite nth_yh_ne in Hj by exact Hn. rewrite RelaxedProofs.nth_setrx_ne in Hx by exact Hn. eapply H; eassumption.
Qed.
(** A turn of thread i in randombytes. *)
Lemma hsim_rng s1 w i h V U s k a t : hsim s1 w -> nth_error (yh_thr w) i = Some (h, V, U) -> t_now h = Some (s, Asking k) ->
  hsim s1 (mkyh (yh_len w) (yh_msgs w) (yh_thr w) (lk_turn st (s, a, t) (yh_rng w))).
Proof.
  intros ((T & nv & HI & HK) & Lx & El & Ht & Hb & Hk) Hi Hn. destruct (lk_turn_inv st stk pos0 rqs T0 HR HD T nv (yh_rng w) s a t HI) as (T' & nv' & HI' & _).
  split; [|split; [exact Lx|split; [exact El|split; [|split]]]].
  - exists T', nv'. split; [exact HI'|]. intros j h2 V2 U2 Hj. cbn [yh_thr] in Hj. specialize (HK _ _ _ _ Hj). cut (T <= T'); [lia|].
    destruct (Z_le_gt_dec T T') as [|G]; [assumption|]. destruct HI as (M1 & _). destruct HI' as (_ & M2 & _).
    destruct (lk_turn_msgs st (s, a, t) (yh_rng w) T ltac:(congruence)). apply M2. lia.
  - intros j ml h2 V2 U2 Hml Hj. cbn [yh_thr yh_rng] in *. destruct (Ht j ml h2 V2 U2 Hml Hj) as (E & done & L & Hd & Hnow). split; [exact E|]. exists done. split; [exact L|].
    split; [intros s0 a0 H1 H2; apply returned_lk, (Hd s0 a0 H1 H2)|]. destruct (t_now h2) as [[s0 ph]|]; [|exact Hnow].
    destruct Hnow as (a0 & H1 & H2). exists a0. split; [exact H1|]. destruct ph; try exact H2. intros H3. apply returned_lk; auto.
  - intros s0 c W rq Hc Hq. cbn [yh_rng yh_thr] in *. destruct (Nat.eq_dec s0 s) as [->|Hne]; [right; right; exists i, h, V, U, k; auto|]. rewrite lk_turn_calls in Hc by auto. eapply Hb; eassumption.
  - intros R HA. cbn [yh_rng yh_thr yh_msgs] in *. apply Hk. eapply agrees_lk; eassumption.
Qed.

(** The turn. *)
Theorem hsim_turn s1 w x : hsim s1 w -> exists s1', hsim s1' (yh_turn C st rqs x w).
Proof.
  intros HM. destruct x as [[i a] t]. unfold yh_turn.
  destruct (nth_error (yh_thr w) i) as [[[h V] U]|] eqn:Hi; [|exists s1; exact HM].
  pose proof HM as ((T & nv & HI & HK) & Lx & El & HOK & _).
  assert (Hml : exists ml, nth_error ls i = Some ml).
  { assert (i < length ls)%nat by (rewrite <- Lx; apply nth_error_Some; congruence). destruct (nth_error ls i) eqn:E; eauto. apply nth_error_None in E. lia. }
  destruct Hml as (ml & Hml). pose proof (HOK i ml h V U Hml Hi) as Hok.
  assert (KEEP : forall T1 nv1, lkinv T1 nv1 (yh_rng w) -> T0 <= U <= T1 -> lkinv T1 nv1 (yh_rng w) /\ T0 <= U <= T1) by auto.
  destruct h as [me [[s ph]|] left codes]; cbn [t_now t_left t_me t_codes] in *.
  - destruct ph as [p k|k|p].
    + (* before *)
      destruct p as [x|e|x kk|x v kk|kk|v kk].
      1: { exists s1. eapply hsim_quiet; [exact HM|exact Hi|apply alike_aware| | | |].
           - intros T1 nv1 H1 H2. split; [apply aware_inv; [lia|exact H1]|exact H2].
           - intros ml0 _ (E & done & L & Hd & a0 & H1 & H2). split; [exact E|]. exists done. cbn in *. split; [exact L|]. split; [exact Hd|]. exists a0. auto.
           - cbn. discriminate.
           - intros R p _ H. exact H. }
      all: match goal with |- context [access _ _ ?pp _ _] => set (q := pp) in * end;
         destruct (access (yh_len w) (yh_msgs w) q V t) as [[ms' q'] V'] eqn:Es; rewrite El in Es; exists (s1 ++ [(i, t)]);
         (eapply (hsim_act _ _ _ _ _ _ _ _ _ (fun R => pbind (pbind q' (fun x => k x (R s))) (fun v => script C me R (codes ++ [v]) left))); [exact HM|exact Hi| | | |]);
         [ intros ml0 _ H; exact H
         | cbn; discriminate
         | intros R p H; unfold ConcHistProofs.rel in H; cbn [t_now t_me t_codes t_left] in H; rewrite H; rewrite access_bind by (subst q; cbn; discriminate); rewrite access_bind by (subst q; discriminate); rewrite Es; reflexivity
         | intros R; reflexivity ].
    + (* in randombytes *)
      destruct Hok as (_ & done & _ & _ & a0 & Hl & _). cbn [t_left] in Hl.
      destruct (HSL i ml s a0 Hml ltac:(rewrite Hl; apply in_or_app; right; left; reflexivity)) as ([b n] & Hrq). pose proof HI as (_ & _ & (LC & _ & _ & HC & _) & _ & VV & _).
      destruct (nth_error (lk_calls (yh_rng w)) s) as [[c W]|] eqn:Hc.
      2:{ apply nth_error_None in Hc. assert (s < length rqs)%nat by (apply nth_error_Some; congruence). cbn [proj rw_calls] in LC. rewrite map_length in LC. lia. }
      assert (Hc' : nth_error (rw_calls (proj (yh_rng w) nv)) s = Some c) by (apply nth_fst; eauto).
      destruct (HC s b n c Hrq Hc') as (_ & _ & _ & _ & Hpc). rewrite Hrq. unfold pc_ok in Hpc.
      destruct (rc_pc c) eqn:Ec; try (exists s1; eapply hsim_rng; [exact HM|exact Hi|reflexivity]).
      * destruct Hpc as (-> & _). assert (RT : lk_returned (yh_rng w) s 0) by (exists c, W; auto). exists s1.
        eapply hsim_quiet; [exact HM|exact Hi|apply alike_id| | | |].
        -- intros T1 nv1 H1 _. split; [exact H1|]. destruct H1 as (_ & _ & _ & _ & VV1 & _). exact (VV1 s c W Hc).
        -- intros ml0 _ (E & done0 & L & Hd & a1 & H1 & H2). split; [exact E|]. exists done0. cbn in *. split; [exact L|]. split; [exact Hd|]. exists a1. auto.
        -- cbn. intros s0 k0 E. injection E as <- _. exact RT.
        -- intros R p HA H. cbn in H |- *. subst p. rewrite (HA s RT). unfold yslot. rewrite Hrq. reflexivity.
      * contradiction.
    + (* after *)
      destruct p as [v|e|x kk|x v kk|kk|v kk].
      1: { exists s1. eapply hsim_quiet; [exact HM|exact Hi|apply alike_id|exact KEEP| | |].
           - intros ml0 _ (E & done & L & Hd & a0 & H1 & H2). split; [exact E|]. exists (done ++ [(s, a0)]). cbn in *. split; [rewrite !app_length, L; reflexivity|].
             split; [|now rewrite <- app_assoc]. intros s1' a1 Hin Ha. apply in_app_or in Hin. destruct Hin as [Hin|[Hin|[]]]; [exact (Hd s1' a1 Hin Ha)|]. injection Hin as <- <-. auto.
           - cbn. discriminate.
           - intros R p _ H. exact H. }
      all: match goal with |- context [access _ _ ?pp _ _] => set (q := pp) in * end;
         destruct (access (yh_len w) (yh_msgs w) q V t) as [[ms' q'] V'] eqn:Es; rewrite El in Es; exists (s1 ++ [(i, t)]);
         (eapply (hsim_act _ _ _ _ _ _ _ _ _ (fun R => pbind q' (fun v => script C me R (codes ++ [v]) left))); [exact HM|exact Hi| | | |]);
         [ intros ml0 _ H; exact H
         | cbn; discriminate
         | intros R p H; unfold ConcHistProofs.rel in H; cbn [t_now t_me t_codes t_left] in H; rewrite H; rewrite access_bind by (subst q; discriminate); rewrite Es; reflexivity
         | intros R; reflexivity ].
  - (* between two actions *)
    destruct left as [|[s ac] left]; [exists s1; exact HM|]. exists s1.
    eapply hsim_quiet; [exact HM|exact Hi|apply alike_id|exact KEEP| | |].
    + intros ml0 _ (E & done & L & Hd & H1). split; [exact E|]. exists done. cbn in *. split; [exact L|]. split; [exact Hd|]. exists ac. split; [exact H1|]. destruct ac; cbn; auto; discriminate.
    + cbn. discriminate.
    + intros R p _ H. cbn in H |- *. subst p. destruct ac; reflexivity.
Qed.
Lemma hsim_start : (exists nv, lkinv T0 nv r0) -> hsim [] (yh_start len ms0 V0 T0 ls r0).
Proof.
  intros (nv & H0). split; [|split; [apply map_length|split; [reflexivity|split; [|split]]]].
  - exists T0, nv. split; [exact H0|]. intros i h V U Hi. unfold yh_start in Hi. cbn [yh_thr] in Hi. rewrite nth_error_map in Hi. destruct (nth_error ls i); [|discriminate]. injection Hi as _ _ <-. lia.
  - intros i ml h V U Hml Hi. unfold yh_start in Hi. cbn [yh_thr] in Hi. rewrite nth_error_map, Hml in Hi. injection Hi as <- _ _. split; [reflexivity|]. exists []. cbn. split; [reflexivity|]. split; [contradiction|reflexivity].
  - intros s c U rq Hc Hq. unfold yh_start in Hc. cbn [yh_rng] in Hc. rewrite S0, nth_error_map, Hq in Hc. injection Hc as <- _. auto.
  - intros R _. exists (map (fun p => (p, V0)) (scripts C R ls)). split; [reflexivity|]. split; [unfold scripts; rewrite !map_length; reflexivity|].
    intros i h V U x Hi Hx. unfold yh_start in Hi. cbn [yh_thr] in Hi. unfold scripts in Hx. rewrite !nth_error_map in *. destruct (nth_error ls i) as [ml|]; [|discriminate].
    injection Hi as <- <- _. injection Hx as <-. split; reflexivity.
Qed.
Lemma hsim_exec sched : forall s1 w, hsim s1 w -> exists s1', hsim s1' (yh_exec C st rqs sched w).
Proof.
  induction sched as [|x s IH]; intros s1 w H; [exists s1; exact H|].
  destruct (hsim_turn s1 w x H) as (s1' & H'). cbn [yh_exec fold_left]. eapply IH, H'.
Qed.
End Sim.
