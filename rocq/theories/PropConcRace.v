(** C42: data races.

    Two threads race when each is about to make an access to the same object and at least one
    of the accesses is a store: nothing orders the two.  C11 gives a program with such a state
    no meaning; a program without one behaves as its interleavings say (sequential
    consistency), so C33 and C41 do not depend on that assumption where no race exists. *)
From Verif Require Import CSem Params FrodoSpec Macrify Kem KemWp FrodoFacts PropKem Conc ConcProofs ConcKem ConcKemProofs PropConcKem
  Random ConcRandom ConcRandomProofs PropConcRandom ConcLib ConcLibProofs PropConcLib.

(** The access a thread makes next: to a byte of the memory, or to the global of aes_c.c. *)
Inductive access := ReadAt (a : Z) | WriteAt (a : Z) | ReadGlobal | WriteGlobal.
Definition next {A} (p : prog A) : option access :=
  match p with
  | Ld a _ => Some (ReadAt a)
  | St a _ _ => Some (WriteAt a)
  | Gld _ => Some ReadGlobal
  | Gst _ _ => Some WriteGlobal
  | _ => None
  end.
Definition conflict (x y : access) : Prop :=
  match x, y with
  | WriteAt a, WriteAt b | WriteAt a, ReadAt b | ReadAt a, WriteAt b => a = b
  | WriteGlobal, WriteGlobal | WriteGlobal, ReadGlobal | ReadGlobal, WriteGlobal => True
  | _, _ => False
  end.
Definition race (thr : list (prog Z)) : Prop :=
  exists i j p q x y, i <> j /\ nth_error thr i = Some p /\ nth_error thr j = Some q /\ next p = Some x /\ next q = Some y /\ conflict x y.

Lemma obeys_next {A} R W (p : prog A) m x : obeys R W p m -> next p = Some x ->
  match x with ReadAt a => R a | WriteAt a => W a | _ => False end.
Proof. destruct p; cbn; intros H E; try discriminate; injection E as <-; tauto. Qed.
Lemma calm P R W mem g (HO : forall i p, nth_error P i = Some p -> obeys (R i) (W i) p mem) (HD : forall i j a, i <> j -> W i a -> R j a -> False)
  (HW : forall i a, W i a -> R i a) sched : ~ race (w_thr (exec sched (mkw mem g P))).
Proof.
  intros (i & j & p & q & x & y & Hij & Hi & Hj & Hx & Hy & Hc).
  destruct (inv_exec Z P R W mem g HD sched _ [] (inv_init Z P R W mem g HO)) as (_ & _ & _ & Dom & Th).
  destruct (nth_error P i) as [pi|] eqn:Ei; [|apply Dom in Ei; congruence]. destruct (nth_error P j) as [pj|] eqn:Ej; [|apply Dom in Ej; congruence].
  destruct (Th i pi p Ei Hi) as (mi & _ & Oi & _). destruct (Th j pj q Ej Hj) as (mj & _ & Oj & _).
  pose proof (obeys_next _ _ p mi x Oi Hx) as Xi. pose proof (obeys_next _ _ q mj y Oj Hy) as Yj.
  destruct x, y; cbn in Hc; try contradiction; subst; [apply (HD j i a0); auto|apply (HD i j a0); auto|apply (HD i j a0); auto].
Qed.

(** ** Calls of the API by several threads (the setting of C33) never race *)
Theorem C42_race_free : forall C mem g cs, valid (cP C) -> build_ok C -> reentrant C ->
  (forall i me c, nth_error cs i = Some (me, c) -> exists outs, prescribed C mem c outs) -> apart C (map snd cs) ->
  forall sched, ~ race (w_thr (exec sched (mkw mem g (map (fun mc => program C (fst mc) (snd mc)) cs)))).
Proof.
  intros C mem g cs V Hb Hre HP HA. set (Ps := map (fun mc => program C (fst mc) (snd mc)) cs).
  apply (calm Ps (fun i a => exists me c, nth_error cs i = Some (me, c) /\ within (writes C c ++ inputs C c) a)
                 (fun i a => exists me c, nth_error cs i = Some (me, c) /\ within (writes C c) a)).
  - intros i p E. unfold Ps in E. rewrite nth_error_map in E. destruct (nth_error cs i) as [[me c]|] eqn:Ec; [|discriminate]. injection E as <-.
    destruct (HP i me c Ec) as (outs & Hp). destruct (call_alone C me mem c outs V Hb Hre Hp) as (O & _).
    eapply obeys_mono; [| |exact O]; intros a Ha; exists me, c; auto.
  - intros i k a Hn (m1 & x & Ex & (o & n & I1 & H1)) (m2 & y & Ey & (o' & n' & I2 & H2)).
    assert (D : disjoint o n o' n').
    { apply (HA i k x y Hn); [rewrite nth_error_map, Ex; reflexivity|rewrite nth_error_map, Ey; reflexivity|exact I1|exact I2]. }
    unfold disjoint in D. lia.
  - intros i a (me & c & Ec & (o & n & I1 & H1)). exists me, c. split; [exact Ec|]. exists o, n. split; [apply in_or_app; auto|exact H1].
Qed.
Print Assumptions C42_race_free.

(** ** With the library's own randombytes (the setting of C41) *)
(** The accesses of a thread to the memory of the arguments and to the global; and those of
    randombytes: to its buffer in the read system call, and to the static variable [lock]. *)
Definition xnext (ph : phase) : option access :=
  match ph with Before p _ => next p | Asking _ => None | After p => next p end.
Definition memory_race (w : xworld) : Prop :=
  exists i j p q x y, i <> j /\ nth_error (x_thr w) i = Some p /\ nth_error (x_thr w) j = Some q /\
    xnext p = Some x /\ xnext q = Some y /\ conflict x y.
(** Call c of randombytes is about to let read() write its buffer from [a] on, at most n bytes. *)
Definition fills (w : rworld) (i : nat) (a n : Z) : Prop :=
  exists c fd, nth_error (rw_calls w) i = Some c /\ rc_pc c = PRead fd /\ a = rc_buf c + rc_count c /\ n = rc_n c.
Theorem C42_library : forall C mem g cs stk rqs lock fds pos st sched, setting C mem cs stk rqs lock fds st ->
  let w := xexec st rqs sched (begin C mem g cs stk rqs lock fds pos) in
  ~ memory_race w /\
  forall i j a n b m, i <> j -> fills (x_rng w) i a n -> fills (x_rng w) j b m -> disjoint a n b m.
Proof.
  intros C mem g cs stk rqs lock fds pos st sched HS w. destruct (sim_run C mem g cs stk rqs lock fds pos st HS sched) as (s1 & s2 & HM). fold w in HM. split.
  - assert (HF : fits C cs (chosen C cs rqs w)) by (intros i me c Hi; exact (chosen_ok C mem g cs stk rqs lock fds pos st HS s1 s2 w i me c HM Hi)).
    destruct (calls_fit C mem cs stk rqs lock fds st HS _ HF) as (HP & HA). pose proof HS as (V & Hb & Hre & _).
    pose proof HM as (_ & Lx & _ & Hk). destruct (Hk (chosen C cs rqs w) (agrees_chosen C cs rqs w)) as (thr & E & L & Hrel).
    destruct (programs_map C (chosen C cs rqs w) cs) as (E' & _). rewrite E' in E.
    pose proof (C42_race_free C mem g _ V Hb Hre HP HA s1) as HR. rewrite E in HR. cbn [w_thr] in HR.
    intros (i & j & p & q & x & y & Hij & Hi & Hj & Hx & Hy & Hc). apply HR.
    assert (IN : forall i ph, nth_error (x_thr w) i = Some ph -> exists p, nth_error thr i = Some p).
    { intros k ph Hph. assert (k < length thr)%nat by (rewrite L, <- Lx; apply nth_error_Some; congruence). destruct (nth_error thr k) eqn:Ek; eauto. apply nth_error_None in Ek. lia. }
    assert (NX : forall ph r p x, rel r ph p -> xnext ph = Some x -> next p = Some x).
    { intros ph r p0 x0 H H0. destruct ph as [q0 k|k|q0]; cbn in H, H0; [subst p0; destruct q0; cbn in *; auto; discriminate|discriminate|subst; exact H0]. }
    destruct (IN i p Hi) as (p' & Hp'). destruct (IN j q Hj) as (q' & Hq').
    exists i, j, p', q', x, y. pose proof (NX p _ p' x (Hrel i p p' Hi Hp') Hx). pose proof (NX q _ q' y (Hrel j q q' Hj Hq') Hy). repeat split; assumption.
  - intros i j a n b m Hij (c & fd & Hc & Ep & -> & ->) (d & fd' & Hd & Eq & -> & ->).
    pose proof (sim_rinv C st mem g cs stk pos rqs _ (set_req C mem cs stk rqs lock fds st HS) (set_dis C mem cs stk rqs lock fds st HS) (set_inv C mem cs stk rqs lock fds pos st HS) s1 s2 w HM) as (Ln & _ & _ & HC & _).
    destruct (calls_nth rqs (x_rng w) i c Ln Hc) as (a0 & n0 & Hr). destruct (calls_nth rqs (x_rng w) j d Ln Hd) as (b0 & m0 & Hs).
    destruct (HC i a0 n0 c Hr Hc) as (E1 & E2 & ? & ? & _). destruct (HC j b0 m0 d Hs Hd) as (E3 & E4 & ? & ? & _).
    pose proof (set_dis C mem cs stk rqs lock fds st HS i j a0 n0 b0 m0 Hij Hr Hs). unfold disjoint. lia.
Qed.
Print Assumptions C42_library.

(** The static variable of random.c is different: a call may be about to store it while another
    is about to load it.  (C37 and C41 take those accesses as sequentially consistent.) *)
Definition loads_lock (c : rcall) : bool := match rc_pc c with PTest | PDelay | PAgain | PLock => true | _ => false end.
Definition stores_lock (c : rcall) : bool := match rc_pc c with PStore _ => true | _ => false end.
Definition lock_race (w : rworld) : Prop :=
  exists i j c d, i <> j /\ nth_error (rw_calls w) i = Some c /\ nth_error (rw_calls w) j = Some d /\
    stores_lock c = true /\ (loads_lock d = true \/ stores_lock d = true).
(** There is such a race exactly when the device has not been opened when the calls start. *)
Theorem C42_lock_race_free : forall st mem lock fds pos rqs sched, requests_ok mem rqs -> device_ok lock fds -> lock <> -1 ->
  ~ lock_race (rexec st sched (start mem lock fds pos rqs)).
Proof.
  intros st mem lock fds pos rqs sched Hq Hd Hl.
  assert (K : forall s w, rw_lock w <> -1 -> (forall i c, nth_error (rw_calls w) i = Some c -> match rc_pc c with POpen | PStore _ | PDelay | PAgain => False | _ => True end) ->
    forall i c, nth_error (rw_calls (rexec st s w)) i = Some c -> stores_lock c = false).
  { clear. induction s as [|[j a] s IH]; intros w Hl Hp i c.
    - cbn. intros Hc. specialize (Hp i c Hc). unfold stores_lock. destruct (rc_pc c); try reflexivity; contradiction.
    - cbn [rexec fold_left]. apply IH.
      + unfold rturn. cbn [fst snd]. destruct (nth_error (rw_calls w) j) as [d|] eqn:E; [|exact Hl]. specialize (Hp j d E). unfold rstep.
        destruct (rc_pc d); try contradiction; cbn [rw_lock]; try exact Hl.
        destruct (if is_open (rw_open w) fd then an_read a else RErr); [exact Hl|].
        match goal with |- context [match ?m with Ok _ _ => _ | Err _ => _ end] => destruct m as [[[x y] z] t|e] end; exact Hl.
      + intros k d Hd. rewrite nth_turn in Hd. destruct (nth_error (rw_calls w) k) as [e|] eqn:E; [|discriminate]. specialize (Hp k e E).
        destruct (Nat.eq_dec j k); [|injection Hd as <-; exact Hp]. injection Hd as <-. unfold rstep.
        destruct (rc_pc e) eqn:Ep; try contradiction; unfold at_; cbn [fst rc_pc].
        * destruct (Z.eqb_spec (rw_lock w) (-1)); [contradiction|exact I].
        * destruct (0 <? rc_n e); exact I.
        * exact I.
        * destruct (if is_open (rw_open w) fd then an_read a else RErr); [exact I|].
          match goal with |- context [match ?m with Ok _ _ => _ | Err _ => _ end] => destruct m as [[[x y] z] t|e'] end; exact I.
        * rewrite Ep. exact I.
        * rewrite Ep. exact I. }
  intros (i & j & c & d & _ & Hc & _ & Hs & _). rewrite (K sched (start mem lock fds pos rqs) Hl) with (i := i) in Hs; [discriminate| |exact Hc].
  intros k e He. cbn [start rw_calls] in He. rewrite nth_error_map in He. destruct (nth_error rqs k); [|discriminate]. injection He as <-. exact I.
Qed.
Print Assumptions C42_lock_race_free.
Theorem C42_lock_race_refuted : forall st pos rqs mem, (2 <= length rqs)%nat -> requests_ok mem rqs ->
  exists sched, lock_race (rexec st sched (start mem (-1) [] pos rqs)).
Proof.
  intros st pos rqs mem HL Hq. destruct rqs as [|rq0 [|rq1 rqs]]; cbn in HL; try lia.
  exists [(0%nat, {| an_open := Some 3%nat; an_read := RErr |}); (0%nat, {| an_open := Some 3%nat; an_read := RErr |})].
  exists 0%nat, 1%nat. eexists. eexists. split; [discriminate|]. cbn. split; [reflexivity|]. split; [reflexivity|]. split; [reflexivity|]. left. reflexivity.
Qed.
Print Assumptions C42_lock_race_refuted.

(** ** The portable AES
    In a build that generates A with aes_c.c, calls of the API do race, on its global: whatever
    the calls are, two of them can be about to store it at once; and one of them then finds the
    other's pointer there. *)
(** p does what q does, up to its first store of the global, which it reaches if q returns. *)
Fixpoint upto {A B} (me : Z) (p : prog A) (q : prog B) : Prop :=
  match p, q with
  | Gst v k, _ => v = me /\ exists k', k = Gld k' /\ forall u, u <> v -> k' u = Fault UB_race
  | Ld a k, Ld a' k' => a = a' /\ forall v, upto me (k v) (k' v)
  | St a v k, St a' v' k' => a = a' /\ v = v' /\ upto me k k'
  | Fault _, Fault _ => True
  | _, _ => False
  end.
(** The programs before that point have no access to the global. *)
Fixpoint noglobal {A} (p : prog A) : Prop :=
  match p with Ret _ | Fault _ => True | Ld _ k => forall v, noglobal (k v) | St _ _ k => noglobal k | _ => False end.
Lemma upto_bind {A B B'} me (p : prog A) (f : A -> prog B) (f' : A -> prog B') : noglobal p -> (forall a, upto me (f a) (f' a)) -> upto me (pbind p f) (pbind p f').
Proof. intros N H. induction p; cbn in *; auto; contradiction. Qed.
Lemma noglobal_bind {A B} (p : prog A) (f : A -> prog B) : noglobal p -> (forall a, noglobal (f a)) -> noglobal (pbind p f).
Proof. intros N H. induction p; cbn in *; auto. Qed.
Lemma noglobal_loc {A} (m : res A) : noglobal (loc m).
Proof. destruct m; exact I. Qed.
Lemma noglobal_load o n : noglobal (load o n).
Proof. unfold load. destruct (0 <=? n); [|exact I]. revert o. induction (Z.to_nat n) as [|k IH]; intros o; cbn; [exact I|]. intros v. apply noglobal_bind; [apply IH|]. intros; exact I. Qed.
Lemma noglobal_store o l : noglobal (store o l).
Proof. unfold store. revert o. induction l; intros o; cbn; auto. Qed.
Lemma noglobal_shake P o n i il : noglobal (shake_to_p P o n i il).
Proof. unfold shake_to_p. apply noglobal_bind; [apply noglobal_load|]. intros b. apply noglobal_bind; [apply noglobal_loc|]. intros; apply noglobal_store. Qed.
Ltac quiet := first [apply noglobal_loc|apply noglobal_load|apply noglobal_store|apply noglobal_shake].

Definition other (C : config) : config := {| cP := cP C; cEn := cEn C; cImpl := cImpl C; cGen := cGen C; cAes := AesNI |}.
Lemma upto_state {A B D} (C : config) me (m : res A) (h : A -> prog B) (q : prog D) : uses_state C = true -> upto me (pbind (with_state C me m) h) q.
Proof.
  intros H. unfold with_state. rewrite H. cbn. split; [reflexivity|]. eexists. split; [reflexivity|]. intros u Hu. cbn. destruct (Z.eqb_spec u me); [contradiction|reflexivity].
Qed.
Lemma upto_program C me c : uses_state C = true -> upto me (program C me c) (program (other C) me c).
Proof.
  intros H. destruct c as [rb pk sk|rb ct ss pk|ss ct sk]; cbn [program].
  - unfold keypair_p. cbn [other cP cEn]. cbv zeta.
    repeat (apply upto_bind; [quiet|intros ?]; try match goal with x : (_ * _)%type |- _ => destruct x end).
    apply upto_state, H.
  - unfold enc_p, enc_rest. cbn [other cP cEn]. cbv zeta.
    repeat (apply upto_bind; [quiet|intros ?]; try match goal with x : (_ * _)%type |- _ => destruct x end).
    apply upto_state, H.
  - unfold dec_p. cbn [other cP cEn]. cbv zeta.
    apply upto_bind; [destruct (_ =? 0); [quiet|exact I]|intros ?].
    repeat (apply upto_bind; [quiet|intros ?]; try match goal with x : (_ * _)%type |- _ => destruct x end).
    apply upto_state, H.
Qed.

Section Portable.
Variables (Qs : list (prog Z)) (R W : nat -> Z -> Prop) (mem0 : list Z) (g0 : Z) (mes : nat -> Z).
Hypothesis HO : forall i p, nth_error Qs i = Some p -> obeys (R i) (W i) p mem0.
Hypothesis HD : forall i j a, i <> j -> W i a -> R j a -> False.
Hypothesis HR : forall i p, nth_error Qs i = Some p -> exists v m, solo p mem0 g0 = (ret v, m, g0).
Definition paired (thr : list (prog Z)) (w : world Z) : Prop :=
  (forall k, nth_error thr k = None <-> nth_error (w_thr w) k = None) /\
  forall k p q, nth_error thr k = Some p -> nth_error (w_thr w) k = Some q -> upto (mes k) p q.

(** One step of a thread that has not come to its store of the global. *)
Lemma paired_turn i thr w p : paired thr w -> nth_error thr i = Some p -> (forall v k, p <> Gst v k) ->
  exists thr', turn i (mkw (w_mem w) (w_g w) thr) = mkw (w_mem (turn i w)) (w_g (turn i w)) thr' /\ paired thr' (turn i w) /\ forall k, k <> i -> nth_error thr' k = nth_error thr k.
Proof.
  intros (Dom & HP) Hi Hg. destruct (nth_error (w_thr w) i) as [q|] eqn:Eq; [|apply Dom in Eq; congruence]. pose proof (HP i p q Hi Eq) as U.
  unfold turn. cbn [w_thr w_mem w_g]. rewrite Hi, Eq.
  assert (S : exists p' q' m' g', step p (w_mem w) (w_g w) = (p', m', g') /\ step q (w_mem w) (w_g w) = (q', m', g') /\ upto (mes i) p' q').
  { destruct p as [a|e|a k|a v k|k|v k], q as [a'|e'|a' k'|a' v' k'|k'|v' k']; cbn in U; try contradiction; try (exfalso; eapply Hg; reflexivity).
    - do 4 eexists. cbn. split; [reflexivity|]. split; [reflexivity|exact I].
    - destruct U as (<- & U). cbn. destruct (in_mem (w_mem w) a); do 4 eexists; (split; [reflexivity|]; split; [reflexivity|]); [apply U|exact I].
    - destruct U as (<- & <- & U). cbn. destruct (in_mem (w_mem w) a); do 4 eexists; (split; [reflexivity|]; split; [reflexivity|]); [apply U|exact I]. }
  destruct S as (p' & q' & m' & g' & -> & -> & U'). cbn [w_mem w_g]. exists (set_thr thr i p'). split; [reflexivity|]. split.
  - split.
    + intros k. destruct (Nat.eq_dec i k) as [<-|Hn]; cbn [w_thr].
      * rewrite (nth_set_eq _ _ _ _ Hi), (nth_set_eq _ _ _ _ Eq). split; discriminate.
      * rewrite !nth_set_ne by exact Hn. apply Dom.
    + intros k x y Hx Hy. cbn [w_thr] in Hy. destruct (Nat.eq_dec i k) as [<-|Hn].
      * rewrite (nth_set_eq _ _ _ _ Hi) in Hx. rewrite (nth_set_eq _ _ _ _ Eq) in Hy. injection Hx as <-. injection Hy as <-. exact U'.
      * rewrite nth_set_ne in Hx, Hy by exact Hn. eauto.
  - intros k Hk. apply nth_set_ne. auto.
Qed.
Lemma reach i : forall n w thr done, inv Z Qs R W mem0 g0 w done -> paired thr w -> nth_error thr i <> None ->
  (forall q, nth_error Qs i = Some q -> actions q mem0 g0 - count_occ Nat.eq_dec done i <= n)%nat ->
  exists s thr', inv Z Qs R W mem0 g0 (exec s w) (done ++ s) /\ exec s (mkw (w_mem w) (w_g w) thr) = mkw (w_mem (exec s w)) (w_g (exec s w)) thr' /\
    paired thr' (exec s w) /\ (forall k, k <> i -> nth_error thr' k = nth_error thr k) /\
    exists k, nth_error thr' i = Some (Gst (mes i) (Gld k)) /\ forall u, u <> mes i -> k u = Fault UB_race.
Proof.
  induction n as [|n IH]; intros w thr done HI HP Hi Hn.
  all: destruct (nth_error thr i) as [p|] eqn:Ei; [|congruence].
  all: assert (G : (exists v k, p = Gst v k) \/ forall v k, p <> Gst v k) by (destruct p; eauto; right; intros; discriminate).
  all: destruct G as [(v & k & ->)|G].
  1,3: exists [], thr; rewrite app_nil_r; cbn [exec fold_left]; split; [exact HI|]; split; [reflexivity|]; split; [exact HP|]; split; [auto|];
    destruct HP as (Dom & HP); destruct (nth_error (w_thr w) i) as [q|] eqn:Eq; [|apply Dom in Eq; congruence]; destruct (HP i _ q Ei Eq) as (-> & k' & -> & Hk); eauto.
  all: pose proof HI as (_ & _ & _ & DomQ & Th); pose proof HP as (Dom & HU); destruct (nth_error (w_thr w) i) as [q|] eqn:Eq; [|apply Dom in Eq; congruence];
    destruct (nth_error Qs i) as [q0|] eqn:E0; [|apply DomQ in E0; congruence]; destruct (Th i q0 q E0 Eq) as (m & Lm & Om & _ & Sm & Am);
    pose proof (HU i p q Ei Eq) as U; destruct (HR i q0 E0) as (v0 & m0 & S0); specialize (Hn q0 eq_refl).
  all: assert (NE : (1 <= actions q m g0)%nat) by
    (destruct p, q; cbn in U; try contradiction; cbn; try lia; try (exfalso; eapply G; reflexivity); cbn in Sm; rewrite S0 in Sm; discriminate).
  - lia.
  - destruct (paired_turn i thr w p HP Ei G) as (thr1 & E1 & HP1 & K1).
    destruct (IH (turn i w) thr1 (done ++ [i])) as (s & thr' & I' & E' & P' & K' & F').
    + now apply inv_turn.
    + exact HP1.
    + intros Hx. destruct HP1 as (D1 & _). apply D1 in Hx. unfold turn in Hx. rewrite Eq in Hx. destruct (step q (w_mem w) (w_g w)) as [[q' m'] g']. cbn in Hx.
      rewrite (nth_set_eq _ _ _ _ Eq) in Hx. discriminate.
    + intros q1 Eq1. injection Eq1 as <-. rewrite count_occ_app. cbn. destruct (Nat.eq_dec i i); [lia|congruence].
    + exists (i :: s), thr'. cbn [exec fold_left]. replace (done ++ i :: s) with ((done ++ [i]) ++ s) by now rewrite <- app_assoc.
      split; [exact I'|]. split; [rewrite E1; exact E'|]. split; [exact P'|]. split; [|exact F']. intros k Hk. rewrite K', K1 by exact Hk. reflexivity.
Qed.
Lemma reaches i w thr done : inv Z Qs R W mem0 g0 w done -> paired thr w -> nth_error thr i <> None ->
  exists s thr', inv Z Qs R W mem0 g0 (exec s w) (done ++ s) /\ exec s (mkw (w_mem w) (w_g w) thr) = mkw (w_mem (exec s w)) (w_g (exec s w)) thr' /\
    paired thr' (exec s w) /\ (forall k, k <> i -> nth_error thr' k = nth_error thr k) /\
    exists k, nth_error thr' i = Some (Gst (mes i) (Gld k)) /\ forall u, u <> mes i -> k u = Fault UB_race.
Proof.
  intros H1 H2 H3. apply (reach i (match nth_error Qs i with Some q => actions q mem0 g0 | None => O end)); auto.
  intros q ->. lia.
Qed.
End Portable.

Theorem C42_portable_refuted : forall C mem g cs i j mi ci mj cj, valid (cP C) -> build_ok C -> ~ reentrant C ->
  (forall i me c, nth_error cs i = Some (me, c) -> exists outs, prescribed C mem c outs) -> apart C (map snd cs) ->
  i <> j -> nth_error cs i = Some (mi, ci) -> nth_error cs j = Some (mj, cj) -> mi <> mj ->
  let start := mkw mem g (map (fun mc => program C (fst mc) (snd mc)) cs) in
  (exists sched, race (w_thr (exec sched start))) /\
  exists sched, nth_error (w_thr (exec sched start)) i = Some (Fault UB_race).
Proof.
  intros C mem g cs i j mi ci mj cj V Hb Hre HPr HA Hij Hi Hj Hm start.
  assert (HS : uses_state C = true) by (unfold uses_state; unfold reentrant in Hre; destruct (cGen C), (cAes C); try reflexivity; exfalso; apply Hre; auto; right; discriminate).
  set (D := other C). assert (Hb' : build_ok D) by exact Hb. assert (Hre' : reentrant D) by (right; discriminate).
  set (Qs := map (fun mc => program D (fst mc) (snd mc)) cs).
  set (Rd := fun i a => exists me c, nth_error cs i = Some (me, c) /\ within (writes D c ++ inputs D c) a).
  set (Wr := fun i a => exists me c, nth_error cs i = Some (me, c) /\ within (writes D c) a).
  assert (PR : forall i q, nth_error Qs i = Some q -> exists me c, nth_error cs i = Some (me, c) /\ q = program D me c /\ exists outs, prescribed D mem c outs).
  { intros k q E. unfold Qs in E. rewrite nth_error_map in E. destruct (nth_error cs k) as [[me c]|] eqn:Ec; [|discriminate]. injection E as <-. exists me, c. split; [reflexivity|]. split; [reflexivity|].
    destruct (HPr k me c Ec) as (outs & Hp). exists outs. destruct Hp; [eapply (pres_keypair D)|eapply (pres_enc D)|eapply (pres_dec D)]; eassumption. }
  assert (HO : forall i p, nth_error Qs i = Some p -> obeys (Rd i) (Wr i) p mem).
  { intros k q E. destruct (PR k q E) as (me & c & Ec & -> & outs & Hp). destruct (call_alone D me mem c outs V Hb' Hre' Hp) as (O & _).
    eapply obeys_mono; [| |exact O]; intros a Ha; exists me, c; auto. }
  assert (HD : forall i j a, i <> j -> Wr i a -> Rd j a -> False).
  { intros i' k a Hn (m1 & x & Ex & (o & n & I1 & H1)) (m2 & y & Ey & (o' & n' & I2 & H2)).
    assert (X : disjoint o n o' n').
    { apply (HA i' k x y Hn); [rewrite nth_error_map, Ex; reflexivity|rewrite nth_error_map, Ey; reflexivity|exact I1|exact I2]. }
    unfold disjoint in X. lia. }
  assert (HR : forall i p, nth_error Qs i = Some p -> exists v m, solo p mem g = (ret v, m, g)).
  { intros k q E. destruct (PR k q E) as (me & c & Ec & -> & outs & Hp). destruct (call_alone D me mem c outs V Hb' Hre' Hp) as (_ & m' & Sm & _). eauto. }
  set (mes := fun k => fst (nth k cs (0, Dec 0 0 0))).
  assert (Mi : mes i = mi) by (unfold mes; now rewrite (nth_error_nth cs i (0, Dec 0 0 0) Hi)).
  assert (Mj : mes j = mj) by (unfold mes; now rewrite (nth_error_nth cs j (0, Dec 0 0 0) Hj)).
  assert (P0 : paired mes (w_thr start) (mkw mem g Qs)).
  { split; cbn [w_thr start].
    - intros k. unfold start. cbn [w_thr]. unfold Qs. rewrite !nth_error_map. destruct (nth_error cs k); cbn; split; intros; congruence.
    - intros k p q Hp Hq. unfold start in Hp. cbn [w_thr] in Hp. unfold Qs in Hq. cbn [w_thr] in Hq. rewrite nth_error_map in Hp, Hq.
      destruct (nth_error cs k) as [[me c]|] eqn:Ec; [|discriminate]. injection Hp as <-. injection Hq as <-. cbn [fst snd].
      unfold mes. rewrite (nth_error_nth cs k (0, Dec 0 0 0) Ec). apply upto_program, HS. }
  destruct (reaches Qs Rd Wr mem g mes HD HR i _ _ [] (inv_init Z Qs Rd Wr mem g HO) P0) as (s1 & t1 & I1 & E1 & P1 & N1 & k1 & F1 & X1).
  { unfold start. cbn [w_thr]. rewrite nth_error_map, Hi. discriminate. }
  destruct (reaches Qs Rd Wr mem g mes HD HR j _ _ _ I1 P1) as (s2 & t2 & _ & E2 & _ & N2 & k2 & F2 & _).
  { rewrite N1 by auto. unfold start. cbn [w_thr]. rewrite nth_error_map, Hj. discriminate. }
  rewrite <- (N2 i Hij) in F1. rewrite Mi in F1, X1. rewrite Mj in F2. cbn [w_mem w_g] in E1. change (mkw mem g (w_thr start)) with start in E1.
  set (w2 := exec s2 (exec s1 (mkw mem g Qs))) in *. assert (E : exec (s1 ++ s2) start = mkw (w_mem w2) (w_g w2) t2) by (unfold exec; rewrite fold_left_app; fold (exec s1 start); rewrite E1; exact E2).
  split.
  - exists (s1 ++ s2). rewrite E. cbn [w_thr]. exists i, j, (Gst mi (Gld k1)), (Gst mj (Gld k2)), WriteGlobal, WriteGlobal. cbn. auto 8.
  - exists ((s1 ++ s2) ++ [i; j; i]). unfold exec. rewrite fold_left_app. fold (exec (s1 ++ s2) start). rewrite E. cbn [fold_left].
    unfold turn at 3. cbn [w_thr w_mem w_g]. rewrite F1. cbn [step].
    unfold turn at 2. cbn [w_thr w_mem w_g]. rewrite nth_set_ne by exact Hij. rewrite F2. cbn [step].
    unfold turn. cbn [w_thr w_mem w_g]. rewrite nth_set_ne by auto. rewrite (nth_set_eq _ _ _ _ F1). cbn [step w_thr].
    rewrite X1 by auto. eapply nth_set_eq. rewrite nth_set_ne by auto. eapply nth_set_eq. exact F1.
Qed.
Print Assumptions C42_portable_refuted.

(** The hypotheses of the positive theorems are those of C33 and C41 (C33_hyps, C41_hyps); those
    of the last one are met by the same three threads in a portable build of FrodoKEM-976-AES. *)
Definition CA : config := {| cP := cP C976; cEn := cEn C976; cImpl := cImpl C976; cGen := GenAES; cAes := AesC |}.
Example C42_hyps :
  (forall i me c, nth_error cs3 i = Some (me, c) -> exists outs, prescribed CA mem3 c outs) /\ apart CA (map snd cs3) /\
  valid (cP CA) /\ build_ok CA /\ ~ reentrant CA.
Proof.
  destruct C33_hyps as (HP & HA & V & Hb & _). split; [|split; [exact HA|split; [exact V|split; [exact Hb|]]]].
  - clear HA V Hb. revert HP. generalize mem3. intros m HP i me c E. destruct (HP i me c E) as (outs & H).
    destruct H as [rb rc pk sk s seedSE z P|rb rc ct ss pk PK mu P|ss ct sk CT SK P]; eexists.
    + eapply (pres_keypair CA m rb rc pk sk s seedSE z); assumption.
    + eapply (pres_enc CA m rb rc ct ss pk PK mu); assumption.
    + eapply (pres_dec CA m ss ct sk CT SK); assumption.
  - intros [H|H]; [discriminate|]. apply H. reflexivity.
Qed.
