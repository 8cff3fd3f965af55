(** Simulation: seen from the API's memory, a run of ConcLib.v is a run of ConcKem.v with the
    random bytes given in advance; seen from random.c, it is a run of ConcRandom.v. *)
From Verif Require Import CSem Params Macrify Kem Conc ConcProofs ConcKem Random ConcRandom ConcRandomProofs ConcLib.

Lemma nth_ph_eq l i p q : nth_error l i = Some q -> nth_error (set_ph l i p) i = Some p.
Proof. revert i; induction l; intros [|i] H; cbn in *; try discriminate; auto. Qed.
Lemma nth_ph_ne l i j p : i <> j -> nth_error (set_ph l i p) j = nth_error l j.
Proof. revert i j; induction l; intros [|i] [|j] H; cbn; auto; try congruence. Qed.
Lemma step_bind {A B} (p : prog A) (f : A -> prog B) mem g : (forall a, p <> Ret a) ->
  step (pbind p f) mem g = let '(p', mem', g') := step p mem g in (pbind p' f, mem', g').
Proof. intros H. destruct p; cbn; try reflexivity; try (destruct (in_mem mem a); reflexivity). destruct (H a eq_refl). Qed.
Lemma exec_app {A} s1 s2 (w : world A) : exec (s1 ++ s2) w = exec s2 (exec s1 w).
Proof. apply fold_left_app. Qed.
Lemma rexec_snoc st s ia w : rexec st (s ++ [ia]) w = rturn st ia (rexec st s w).
Proof. unfold rexec. rewrite fold_left_app. reflexivity. Qed.

(** The program of a thread whose request is answered with r. *)
Definition program_r (C : config) (mc : Z * acall) (r : list Z) : prog Z :=
  match snd mc with
  | AKeyPair pk sk => keypair_p C (fst mc) (given r) pk sk
  | AEnc ct ss pk => enc_p C (fst mc) (given r) ct ss pk
  | ADec ss ct sk => dec_p C (fst mc) ss ct sk
  end.
Definition asks (c : acall) : bool := match c with ADec _ _ _ => false | _ => true end.
Fixpoint programs_from (C : config) (R : nat -> list Z) (j : nat) (cs : list (Z * acall)) : list (prog Z) :=
  match cs with [] => [] | mc :: cs => program_r C mc (R j) :: programs_from C R (Datatypes.S j) cs end.
Definition programs C R cs := programs_from C R 0 cs.
Lemma nth_programs C R cs i : nth_error (programs C R cs) i = option_map (fun mc => program_r C mc (R i)) (nth_error cs i).
Proof.
  unfold programs. replace (R i) with (R (0 + i)%nat) by reflexivity. generalize 0%nat. revert i. induction cs as [|mc cs IH]; intros [|i] j; cbn; auto.
  - now rewrite Nat.add_0_r.
  - rewrite IH. replace (Datatypes.S j + i)%nat with (j + Datatypes.S i)%nat by lia. reflexivity.
Qed.

(** Bounded number of actions before the request, whatever is read. *)
Inductive short {A} : nat -> prog A -> Prop :=
| short_ret m a : short m (Ret a)
| short_fault m e : short m (Fault e)
| short_ld m a k : (forall v, short m (k v)) -> short (Datatypes.S m) (Ld a k).
Lemma short_bind {A B} m (p : prog A) (f : A -> B) : short m p -> short m (pbind p (fun x => Ret (f x))).
Proof. induction 1; cbn; constructor; auto. Qed.
Lemma short_ldn n : forall a, short n (ldn a n).
Proof. induction n as [|n IH]; intros a; cbn; constructor. intros v. apply short_bind, IH. Qed.
Lemma short_load a n : short (Z.to_nat n) (load a n).
Proof. unfold load. destruct (0 <=? n); [apply short_ldn|constructor]. Qed.

Section Sim.
Variables (C : config) (st : Z -> Z) (mem0 : list Z) (g0 : Z) (cs : list (Z * acall))
  (stk : list Z) (pos0 : Z) (rqs : list (Z * Z)) (r0 : rworld).
Hypothesis HR : forall i a n, nth_error rqs i = Some (a, n) -> 0 <= n < 2147483648 /\ 0 <= a /\ a + n <= zlen stk.
Hypothesis HD : forall i j a n b m, i <> j -> nth_error rqs i = Some (a, n) -> nth_error rqs j = Some (b, m) -> a + n <= b \/ b + m <= a.
Hypothesis HL : length rqs = length cs.
Hypothesis I0 : rinv st stk pos0 rqs r0.
Hypothesis S0 : rw_calls r0 = map rcall_start rqs.

Definition buffer (w : xworld) (i : nat) : list Z :=
  match nth_error rqs i with Some (b, n) => zslice (rw_mem (x_rng w)) b n | None => [] end.
(** What the thread in this phase is, in the run with the random bytes given. *)
Definition rel (r : list Z) (ph : phase) (p : prog Z) : Prop :=
  match ph with
  | Before q k => p = pbind q (fun x => k x r)
  | Asking k => p = k r
  | After q => p = q
  end.
(** R has the bytes that have been delivered. *)
Definition agrees (w : xworld) (R : nat -> list Z) : Prop :=
  forall i mc p, nth_error cs i = Some mc -> asks (snd mc) = true -> nth_error (x_thr w) i = Some (After p) -> R i = buffer w i.
Definition phase_ok (w : xworld) (i : nat) (mc : Z * acall) : Prop :=
  exists ph c rq, nth_error (x_thr w) i = Some ph /\ nth_error (rw_calls (x_rng w)) i = Some c /\ nth_error rqs i = Some rq /\
    match ph with
    | Before _ _ => asks (snd mc) = true /\ c = rcall_start rq
    | Asking _ => asks (snd mc) = true
    | After _ => if asks (snd mc) then rc_pc c = PRet 0 else c = rcall_start rq
    end.
Definition sim (s1 : list nat) (s2 : list (nat * answer)) (w : xworld) : Prop :=
  x_rng w = rexec st s2 r0 /\ length (x_thr w) = length cs /\
  (forall i mc, nth_error cs i = Some mc -> phase_ok w i mc) /\
  forall R, agrees w R -> exists thr, exec s1 (mkw mem0 g0 (programs C R cs)) = mkw (x_mem w) (x_g w) thr /\
    length thr = length cs /\ forall i ph p, nth_error (x_thr w) i = Some ph -> nth_error thr i = Some p -> rel (R i) ph p.

Lemma sim_rinv s1 s2 w : sim s1 s2 w -> rinv st stk pos0 rqs (x_rng w).
Proof. intros (-> & _). apply rinv_exec; assumption. Qed.

(** The buffer of a call that has returned does not change any more. *)
Lemma buffer_turn r j a i b n c : rinv st stk pos0 rqs r -> nth_error rqs i = Some (b, n) ->
  nth_error (rw_calls r) i = Some c -> rc_pc c = PRet 0 ->
  zslice (rw_mem (rturn st (j, a) r)) b n = zslice (rw_mem r) b n.
Proof.
  intros HI Hr Hc Ep. unfold rturn. cbn [fst snd]. destruct (nth_error (rw_calls r) j) as [d|] eqn:Hd; [|reflexivity].
  pose proof HI as (L & LM & _ & HC & _). destruct (calls_nth rqs r j d L Hd) as (bj & nj & Hrj).
  destruct (HC j bj nj d Hrj Hd) as (Eb & En & Hn0 & Hc0 & Hpc). destruct (HR j bj nj Hrj) as (Hn1 & Hb0 & Hb1). destruct (HR i b n Hr) as (Hi1 & Hi2 & Hi3).
  unfold rstep. destruct d as [bb p n0 count]. cbn [rc_pc rc_n rc_count rc_buf] in *.
  destruct p as [| |f| | | | |f|v|e]; cbn [rw_mem]; try reflexivity.
  - destruct (an_open a); reflexivity.
  - assert (Hij : i <> j) by (intros ->; rewrite Hd in Hc; injection Hc as <-; discriminate).
    destruct (if is_open (rw_open r) f then an_read a else RErr) as [|k]; [reflexivity|].
    set (q := Z.max 0 (Z.min k n0)). assert (0 <= q <= n0) by (unfold q; lia).
    unfold put. rewrite zlen_ztab by lia.
    replace (0 <=? bb + count) with true by (symmetry; apply Z.leb_le; lia).
    replace (bb + count + q <=? zlen (rw_mem r)) with true by (symmetry; apply Z.leb_le; lia). cbn [andb].
    unfold i32.
    replace (-2147483648 <=? count + q) with true by (symmetry; apply Z.leb_le; lia).
    replace (count + q <? 2147483648) with true by (symmetry; apply Z.ltb_lt; lia).
    replace (-2147483648 <=? n0 - q) with true by (symmetry; apply Z.leb_le; lia).
    replace (n0 - q <? 2147483648) with true by (symmetry; apply Z.ltb_lt; lia).
    cbn [bind ret andb rw_mem]. pose proof (HD i j b n bj nj Hij Hr Hrj) as Dj.
    assert (LS : zlen (zsplice (rw_mem r) (bb + count) (ztab q (fun i0 => st (rw_pos r + i0)))) = zlen (rw_mem r)) by (apply zlen_zsplice; rewrite ?zlen_ztab by lia; lia).
    apply list_ext; [rewrite !zlen_zslice by lia; reflexivity|]. rewrite zlen_zslice by lia. intros x Hx.
    rewrite !znth_zslice by lia. rewrite znth_zsplice by (rewrite ?zlen_ztab by lia; lia). rewrite zlen_ztab by lia.
    destruct (Z.leb_spec (bb + count) (b + x)), (Z.ltb_spec (b + x) (bb + count + q)); cbn [andb]; try reflexivity; lia.
Qed.

Lemma kem_turn R s1 w i ph p' mem' g' ph' : 
  (exists thr, exec s1 (mkw mem0 g0 (programs C R cs)) = mkw (x_mem w) (x_g w) thr /\
    length thr = length cs /\ forall i ph p, nth_error (x_thr w) i = Some ph -> nth_error thr i = Some p -> rel (R i) ph p) ->
  length (x_thr w) = length cs -> nth_error (x_thr w) i = Some ph ->
  (forall p, rel (R i) ph p -> step p (x_mem w) (x_g w) = (p', mem', g')) -> rel (R i) ph' p' ->
  exists thr, exec (s1 ++ [i]) (mkw mem0 g0 (programs C R cs)) = mkw mem' g' thr /\
    length thr = length cs /\ forall j ph p, nth_error (set_ph (x_thr w) i ph') j = Some ph -> nth_error thr j = Some p -> rel (R j) ph p.
Proof.
  intros (thr & E & L & Hrel) Lx Hi Hst Hr'. destruct (nth_error thr i) as [p|] eqn:Ep.
  2:{ apply nth_error_None in Ep. assert (i < length cs)%nat by (rewrite <- Lx; apply nth_error_Some; congruence). lia. }
  exists (set_thr thr i p'). split.
  { rewrite exec_app, E. cbn [exec fold_left]. unfold turn. cbn [w_thr w_mem w_g]. rewrite Ep, (Hst p (Hrel i ph p Hi Ep)). reflexivity. }
  split. { clear -L. rewrite <- L. generalize dependent (length cs). intros _ _. revert i. induction thr; intros [|i]; cbn; auto. }
  intros j ph2 p2 H1 H2. destruct (Nat.eq_dec i j) as [<-|Hn].
  - rewrite (nth_ph_eq _ _ _ _ Hi) in H1. injection H1 as <-. rewrite (nth_set_eq _ _ _ _ Ep) in H2. injection H2 as <-. exact Hr'.
  - rewrite nth_ph_ne in H1 by exact Hn. rewrite nth_set_ne in H2 by exact Hn. eapply Hrel; eassumption.
Qed.
Lemma length_ph l i p : length (set_ph l i p) = length l.
Proof. revert i. induction l; intros [|i]; cbn; auto. Qed.
Lemma phase_move w i ph ph' mem g : nth_error (x_thr w) i = Some ph ->
  (forall (mc : Z * acall) c rq, asks (snd mc) = true \/ asks (snd mc) = false -> nth_error (rw_calls (x_rng w)) i = Some c -> nth_error rqs i = Some rq ->
    match ph with
    | Before _ _ => asks (snd mc) = true /\ c = rcall_start rq
    | Asking _ => asks (snd mc) = true
    | After _ => if asks (snd mc) then rc_pc c = PRet 0 else c = rcall_start rq
    end ->
    match ph' with
    | Before _ _ => asks (snd mc) = true /\ c = rcall_start rq
    | Asking _ => asks (snd mc) = true
    | After _ => if asks (snd mc) then rc_pc c = PRet 0 else c = rcall_start rq
    end) ->
  forall j mc, phase_ok w j mc -> phase_ok (mkx mem g (set_ph (x_thr w) i ph') (x_rng w)) j mc.
Proof.
  intros Hi H j mc (ph0 & c & rq & H1 & H2 & H3 & H4). destruct (Nat.eq_dec i j) as [<-|Hn].
  - rewrite Hi in H1. injection H1 as <-. exists ph', c, rq. cbn [x_thr x_rng]. rewrite (nth_ph_eq _ _ _ _ Hi).
    split; [reflexivity|]. split; [exact H2|]. split; [exact H3|]. apply (H mc c rq); auto. destruct (asks (snd mc)); auto.
  - exists ph0, c, rq. cbn [x_thr x_rng]. rewrite nth_ph_ne by exact Hn. auto.
Qed.

(** One turn. *)
Theorem sim_turn s1 s2 w ia : sim s1 s2 w -> exists s1' s2', sim s1' s2' (xturn st rqs ia w) /\
  match nth_error (x_thr w) (fst ia) with
  | None => s1' = s1 /\ s2' = s2
  | Some (Before (Ret x) k) => s1' = s1 /\ s2' = s2 /\ nth_error (x_thr (xturn st rqs ia w)) (fst ia) = Some (Asking (k x))
  | Some (Before p k) => s1' = s1 ++ [fst ia] /\ s2' = s2 /\
      nth_error (x_thr (xturn st rqs ia w)) (fst ia) = Some (Before (fst (fst (step p (x_mem w) (x_g w)))) k)
  | Some (Asking k) => (s1' = s1 /\ s2' = s2 ++ [ia] /\ x_thr (xturn st rqs ia w) = x_thr w) \/
      (s1' = s1 /\ s2' = s2 /\ exists p, nth_error (x_thr (xturn st rqs ia w)) (fst ia) = Some (After p))
  | Some (After _) => s1' = s1 ++ [fst ia] /\ s2' = s2 /\ exists p, nth_error (x_thr (xturn st rqs ia w)) (fst ia) = Some (After p)
  end /\
  (forall j, j <> fst ia -> nth_error (x_thr (xturn st rqs ia w)) j = nth_error (x_thr w) j).
Proof.
  intros H. pose proof (sim_rinv _ _ _ H) as HI. destruct H as (Hr & Lx & Hph & Hk). destruct ia as [i a]. cbn [fst]. unfold xturn. cbn [fst].
  destruct (nth_error (x_thr w) i) as [ph|] eqn:Hi.
  2:{ exists s1, s2. split; [split; [exact Hr|split; [exact Lx|split; [exact Hph|exact Hk]]]|]. auto. }
  assert (Hc : exists mc, nth_error cs i = Some mc).
  { assert (i < length cs)%nat by (rewrite <- Lx; apply nth_error_Some; congruence). destruct (nth_error cs i) eqn:E; eauto. apply nth_error_None in E. lia. }
  destruct Hc as (mc & Hmc). pose proof (Hph i mc Hmc) as (ph0 & c & rq & P1 & P2 & P3 & P4). rewrite Hi in P1. injection P1 as <-.
  destruct ph as [p k|k|p].
  - (* before *)
    destruct p as [x|e|x kk|x v kk|kk|v kk].
    1: { exists s1, s2. split; [split; [exact Hr|split; [cbn [x_thr]; now rewrite length_ph|split]]|].
         - intros j mcj Hj. apply (phase_move w i (Before (Ret x) k) (Asking (k x))); [exact Hi|intros mc0 c0 rq0 _ _ _ (X & _); exact X|auto].
         - intros R HA. destruct (Hk R) as (thr & E & L & Hrel).
           { intros j mcj p Hj Ha Hp. assert (j <> i) by (intros ->; congruence). apply (HA j mcj p Hj Ha). cbn [x_thr]. rewrite nth_ph_ne by congruence. exact Hp. }
           exists thr. split; [exact E|]. split; [exact L|]. cbn [x_thr]. intros j ph p H1 H2. destruct (Nat.eq_dec i j) as [<-|Hn].
           + rewrite (nth_ph_eq _ _ _ _ Hi) in H1. injection H1 as <-. apply (Hrel i _ p Hi H2).
           + rewrite nth_ph_ne in H1 by exact Hn. eapply Hrel; eassumption.
         - cbn [x_thr]. rewrite (nth_ph_eq _ _ _ _ Hi). split; [auto|]. intros j Hj. apply nth_ph_ne. congruence. }
    all: match goal with |- context [step ?pp (x_mem _) _] => set (q := pp) in * end;
         destruct (step q (x_mem w) (x_g w)) as [[q' mem'] g'] eqn:Es;
         (exists (s1 ++ [i]), s2; split; [split; [exact Hr|split; [cbn [x_thr]; now rewrite length_ph|split]]|]);
         [ intros j mcj Hj; apply (phase_move w i (Before q k) (Before q' k)); [exact Hi|intros mc0 c0 rq0 _ _ _ X; exact X|auto]
         | intros R HA;
           apply (kem_turn R s1 w i (Before q k) (pbind q' (fun x => k x (R i))) mem' g' (Before q' k));
            [ apply Hk; intros j mcj p Hj Ha Hp; assert (j <> i) by (intros ->; congruence); apply (HA j mcj p Hj Ha); cbn [x_thr]; rewrite nth_ph_ne by congruence; exact Hp
            | exact Lx | exact Hi
            | intros p ->; rewrite step_bind by (subst q; discriminate); rewrite Es; reflexivity
            | reflexivity ]
         | cbn [x_thr fst]; rewrite (nth_ph_eq _ _ _ _ Hi); split; [auto|]; intros j Hj; apply nth_ph_ne; congruence ].
  - (* in randombytes *)
    rewrite P2, P3. destruct rq as [b n]. destruct (HI) as (_ & _ & _ & HC & _). destruct (HC i b n c P3 P2) as (_ & _ & _ & _ & Hpc).
    assert (RET : forall v, rc_pc c = PRet v ->
      sim s1 s2 (mkx (x_mem w) (x_g w) (set_ph (x_thr w) i (After (k (zslice (rw_mem (x_rng w)) b n)))) (x_rng w))).
    { intros v Ev. unfold pc_ok in Hpc. rewrite Ev in Hpc. destruct Hpc as (-> & _).
      split; [exact Hr|split; [cbn [x_thr]; now rewrite length_ph|split]].
      - intros j mcj Hj. eapply (phase_move w i (Asking k)); [exact Hi| |auto]. intros mc0 c0 rq0 _ X _ ->. congruence.
      - intros R HA. destruct (Hk R) as (thr & E & L & Hrel).
        { intros j mcj p Hj Ha Hp. assert (j <> i) by (intros ->; congruence). apply (HA j mcj p Hj Ha). cbn [x_thr]. rewrite nth_ph_ne by congruence. exact Hp. }
        exists thr. split; [exact E|]. split; [exact L|]. cbn [x_thr]. intros j ph p H1 H2. destruct (Nat.eq_dec i j) as [<-|Hn].
        + rewrite (nth_ph_eq _ _ _ _ Hi) in H1. injection H1 as <-. cbn [rel]. rewrite (Hrel i _ p Hi H2).
          rewrite (HA i mc _ Hmc P4 (nth_ph_eq _ _ _ _ Hi)). unfold buffer. rewrite P3. reflexivity.
        + rewrite nth_ph_ne in H1 by exact Hn. eapply Hrel; eassumption. }
    assert (RUN : sim s1 (s2 ++ [(i, a)]) (mkx (x_mem w) (x_g w) (x_thr w) (rturn st (i, a) (x_rng w)))).
    { split; [cbn [x_rng]; rewrite rexec_snoc, <- Hr; reflexivity|]. split; [exact Lx|]. 
      assert (KEEP : forall j cj, j <> i \/ (exists v, rc_pc cj = PRet v) -> nth_error (rw_calls (x_rng w)) j = Some cj -> nth_error (rw_calls (rturn st (i, a) (x_rng w))) j = Some cj).
      { intros j cj Hj Hcj. rewrite nth_turn, Hcj. destruct (Nat.eq_dec i j) as [Eij|]; [|reflexivity]. destruct Hj as [Hj|(v & Hv)]; [congruence|]. unfold rstep. rewrite Hv. reflexivity. }
      split.
      - intros j mcj Hj. destruct (Hph j mcj Hj) as (phj & cj & rqj & Q1 & Q2 & Q3 & Q4). unfold phase_ok. cbn [x_thr x_rng].
        destruct (Nat.eq_dec i j) as [<-|Hn].
        + rewrite Hi in Q1. injection Q1 as <-. rewrite nth_turn, Q2. eexists; eexists; eexists. split; [exact Hi|]. split; [reflexivity|]. split; [exact Q3|]. exact Q4.
        + exists phj, cj, rqj. split; [exact Q1|]. split; [apply KEEP; auto|]. auto.
      - intros R HA. apply Hk. intros j mcj p Hj Ha Hp. rewrite (HA j mcj p Hj Ha Hp). unfold buffer. cbn [x_rng].
        destruct (Hph j mcj Hj) as (phj & cj & [bj nj] & Q1 & Q2 & Q3 & Q4). rewrite Q3. rewrite Hp in Q1. injection Q1 as <-. rewrite Ha in Q4.
        eapply buffer_turn; eassumption. }
    assert (FIN : forall s2' w', sim s1 s2' w' ->
      ((s1 = s1 /\ s2' = s2 ++ [(i, a)] /\ x_thr w' = x_thr w) \/ (s1 = s1 /\ s2' = s2 /\ exists p, nth_error (x_thr w') i = Some (After p))) ->
      (forall j, j <> i -> nth_error (x_thr w') j = nth_error (x_thr w) j) ->
      exists s1' s2'0, sim s1' s2'0 w' /\ ((s1' = s1 /\ s2'0 = s2 ++ [(i, a)] /\ x_thr w' = x_thr w) \/ (s1' = s1 /\ s2'0 = s2 /\ exists p, nth_error (x_thr w') i = Some (After p))) /\
        (forall j, j <> i -> nth_error (x_thr w') j = nth_error (x_thr w) j)).
    { intros s2' w' X Y Z0. exists s1, s2'. auto. }
    destruct (rc_pc c) eqn:Ec; try (apply (FIN (s2 ++ [(i, a)])); [exact RUN|left; auto|auto]).
    + apply (FIN s2); [apply (RET v); reflexivity|right|]; cbn [x_thr].
      * rewrite (nth_ph_eq _ _ _ _ Hi). eauto.
      * intros j Hj. apply nth_ph_ne. congruence.
    + unfold pc_ok in Hpc. rewrite Ec in Hpc. contradiction.
  - (* after *)
    destruct (step p (x_mem w) (x_g w)) as [[p' mem'] g'] eqn:Es. exists (s1 ++ [i]), s2. split; [split; [exact Hr|split; [cbn [x_thr]; now rewrite length_ph|split]]|].
    + intros j mcj Hj. apply (phase_move w i (After p) (After p')); [exact Hi|intros mc0 c0 rq0 _ _ _ X; exact X|auto].
    + intros R HA. apply (kem_turn R s1 w i (After p) p' mem' g' (After p')); [|exact Lx|exact Hi|intros q ->; exact Es|reflexivity].
      apply Hk. intros j mcj q Hj Ha Hq. destruct (Nat.eq_dec i j) as [<-|Hn].
      * apply (HA i mcj p' Hj Ha). cbn [x_thr]. apply (nth_ph_eq _ _ _ _ Hi).
      * apply (HA j mcj q Hj Ha). cbn [x_thr]. rewrite nth_ph_ne by exact Hn. exact Hq.
    + cbn [x_thr]. rewrite (nth_ph_eq _ _ _ _ Hi). split; [eauto|]. intros j Hj. apply nth_ph_ne. congruence.
Qed.

Lemma sim_start : sim [] [] (mkx mem0 g0 (map (start_thread C) cs) r0).
Proof.
  split; [reflexivity|]. split; [apply map_length|]. split.
  - intros i mc Hi. assert (Hr : exists rq, nth_error rqs i = Some rq).
    { assert (i < length rqs)%nat by (rewrite HL; apply nth_error_Some; congruence). destruct (nth_error rqs i) eqn:E; eauto. apply nth_error_None in E. lia. }
    destruct Hr as (rq & Hr). exists (start_thread C mc), (rcall_start rq), rq. cbn [x_thr x_rng]. rewrite S0, !nth_error_map, Hi, Hr.
    split; [reflexivity|]. split; [reflexivity|]. split; [reflexivity|]. destruct mc as [me [pk sk|ct ss pk|ss ct sk]]; cbn; auto.
  - intros R _. exists (programs C R cs). split; [reflexivity|]. split.
    { unfold programs. clear. generalize 0%nat. induction cs; intros j; cbn; auto. }
    intros i ph p H1 H2. cbn [x_thr] in H1. rewrite nth_error_map in H1. rewrite nth_programs in H2. destruct (nth_error cs i) as [[me c]|]; [|discriminate].
    injection H1 as <-. injection H2 as <-. destruct c; reflexivity.
Qed.
Lemma sim_exec sched : forall s1 s2 w, sim s1 s2 w -> exists s1' s2', sim s1' s2' (xexec st rqs sched w).
Proof.
  induction sched as [|ia s IH]; intros s1 s2 w H; [exists s1, s2; exact H|].
  destruct (sim_turn s1 s2 w ia H) as (s1' & s2' & H' & _). cbn [xexec fold_left]. eapply IH, H'.
Qed.
End Sim.
