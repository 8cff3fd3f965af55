(** Simulation for ConcHist.v: seen from the memory, a run is a run of programs (Conc.v) that know
    their random bytes in advance; seen from random.c, it is a run of ConcRandom.v. *)
From Verif Require Import CSem Params Macrify Kem Conc ConcProofs ConcKem Random ConcRandom ConcRandomProofs ConcLib ConcLibProofs Process ConcHist.

(** An action with its random bytes given, and the list of actions of a thread. *)
Definition action_r (C : config) (me : Z) (a : action) (r : list Z) : prog Z :=
  match a with
  | AKeyPair pk sk => keypair_p C me (given r) pk sk
  | AEnc ct ss pk => enc_p C me (given r) ct ss pk
  | ADec ss ct sk => dec_p C me ss ct sk
  | AStore a x => store a x ~;; Ret 0
  end.
Definition asks_a (a : action) : bool := match a with AKeyPair _ _ | AEnc _ _ _ => true | _ => false end.
Fixpoint script (C : config) (me : Z) (R : nat -> list Z) (codes : list Z) (l : list (nat * action)) : prog (list Z) :=
  match l with
  | [] => Ret codes
  | (s, a) :: l => v <~ action_r C me a (R s) ;; script C me R (codes ++ [v]) l
  end.
Definition scripts (C : config) (R : nat -> list Z) (ls : list (Z * list (nat * action))) : list (prog (list Z)) :=
  map (fun ml => script C (fst ml) R [] (snd ml)) ls.

Lemma nth_ht_eq l i t q : nth_error l i = Some q -> nth_error (set_ht l i t) i = Some t.
Proof. revert i; induction l; intros [|i] H; cbn in *; try discriminate; auto. Qed.
Lemma nth_ht_ne l i j t : i <> j -> nth_error (set_ht l i t) j = nth_error l j.
Proof. revert i j; induction l; intros [|i] [|j] H; cbn; auto; try congruence. Qed.
Lemma set_ht_id l i t : nth_error l i = Some t -> set_ht l i t = l.
Proof. revert i; induction l; intros [|i] H; cbn in *; try discriminate; [congruence|]. f_equal; auto. Qed.
Lemma length_ht l i t : length (set_ht l i t) = length l.
Proof. revert i. induction l; intros [|i]; cbn; auto. Qed.
Lemma length_thr {A} (l : list (prog A)) i p : length (set_thr l i p) = length l.
Proof. revert i. induction l; intros [|i]; cbn; auto. Qed.

(** How far the thread is. *)
Definition rank (n : option (nat * phase)) : nat :=
  match n with None => 0 | Some (_, Before _ _) => 1 | Some (_, Asking _) => 2 | Some (_, After _) => 3 end.
Definition stage (t : hthread) : nat := 4 * length (t_codes t) + rank (t_now t).

Section Sim.
Variables (C : config) (st : Z -> Z) (mem0 : list Z) (g0 : Z) (ls : list (Z * list (nat * action)))
  (stk : list Z) (pos0 : Z) (rqs : list (Z * Z)) (r0 : rworld).
Hypothesis HR : forall i a n, nth_error rqs i = Some (a, n) -> 0 <= n < 2147483648 /\ 0 <= a /\ a + n <= zlen stk.
Hypothesis HD : forall i j a n b m, i <> j -> nth_error rqs i = Some (a, n) -> nth_error rqs j = Some (b, m) -> a + n <= b \/ b + m <= a.
Hypothesis I0 : rinv st stk pos0 rqs r0.
Hypothesis S0 : rw_calls r0 = map rcall_start rqs.
Hypothesis HSL : forall i ml s a, nth_error ls i = Some ml -> In (s, a) (snd ml) -> exists rq, nth_error rqs s = Some rq.

Definition slot_bytes (r : rworld) (s : nat) : list Z :=
  match nth_error rqs s with Some (b, n) => zslice (rw_mem r) b n | None => [] end.
Definition returned (r : rworld) (s : nat) : Prop := exists c, nth_error (rw_calls r) s = Some c /\ rc_pc c = PRet 0.
(** R has the bytes that have been delivered. *)
Definition agrees (r : rworld) (R : nat -> list Z) : Prop := forall s, returned r s -> R s = slot_bytes r s.

(** What the thread is, in the run with the random bytes given. *)
Definition rel (R : nat -> list Z) (t : hthread) (p : prog (list Z)) : Prop :=
  let f v := script C (t_me t) R (t_codes t ++ [v]) (t_left t) in
  match t_now t with
  | None => p = script C (t_me t) R (t_codes t) (t_left t)
  | Some (s, Before q k) => p = pbind (pbind q (fun x => k x (R s))) f
  | Some (s, Asking k) => p = pbind (k (R s)) f
  | Some (s, After q) => p = pbind q f
  end.
Definition thread_ok (r : rworld) (ml : Z * list (nat * action)) (t : hthread) : Prop :=
  t_me t = fst ml /\ exists done, length done = length (t_codes t) /\
    (forall s a, In (s, a) done -> asks_a a = true -> returned r s) /\
    match t_now t with
    | None => snd ml = done ++ t_left t
    | Some (s, ph) => exists a, snd ml = done ++ (s, a) :: t_left t /\
        match ph with After _ => asks_a a = true -> returned r s | _ => asks_a a = true end
    end.
(** A call of randombytes in progress belongs to a thread. *)
Definition busy_ok (w : hworld) : Prop := forall s c rq, nth_error (rw_calls (h_rng w)) s = Some c -> nth_error rqs s = Some rq ->
  c = rcall_start rq \/ rc_pc c = PRet 0 \/ exists i t k, nth_error (h_thr w) i = Some t /\ t_now t = Some (s, Asking k).
Definition sim (s1 : list nat) (s2 : list (nat * answer)) (w : hworld) : Prop :=
  h_rng w = rexec st s2 r0 /\ length (h_thr w) = length ls /\
  (forall i ml t, nth_error ls i = Some ml -> nth_error (h_thr w) i = Some t -> thread_ok (h_rng w) ml t) /\
  busy_ok w /\
  forall R, agrees (h_rng w) R -> exists thr, exec s1 (mkw mem0 g0 (scripts C R ls)) = mkw (h_mem w) (h_g w) thr /\
    length thr = length ls /\ forall i t p, nth_error (h_thr w) i = Some t -> nth_error thr i = Some p -> rel R t p.

Lemma sim_rinv s1 s2 w : sim s1 s2 w -> rinv st stk pos0 rqs (h_rng w).
Proof. intros (-> & _). apply rinv_exec; assumption. Qed.

Lemma returned_turn r s j a : returned r s -> returned (rturn st (j, a) r) s.
Proof.
  intros (c & Hc & Ep). exists c. rewrite nth_turn, Hc. destruct (Nat.eq_dec j s) as [->|]; [|auto]. unfold rstep. rewrite Ep. auto.
Qed.
Lemma slot_turn r s j a : rinv st stk pos0 rqs r -> returned r s -> slot_bytes (rturn st (j, a) r) s = slot_bytes r s.
Proof.
  intros HI (c & Hc & Ep). unfold slot_bytes. destruct (nth_error rqs s) as [[b n]|] eqn:Er; [|reflexivity].
  eapply (buffer_turn st (map (fun _ => (0, ConcLib.ADec 0 0 0)) rqs) stk pos0 rqs HR HD ltac:(now rewrite map_length) r j a s b n c); eassumption.
Qed.
Lemma agrees_turn r j a R : rinv st stk pos0 rqs r -> agrees (rturn st (j, a) r) R -> agrees r R.
Proof. intros HI H s Hs. rewrite (H s (returned_turn r s j a Hs)). apply slot_turn; assumption. Qed.

(** A turn that changes thread i only, without an action on the memory. *)
Lemma sim_quiet s1 s2 w i t t' : sim s1 s2 w -> nth_error (h_thr w) i = Some t ->
  (forall ml, nth_error ls i = Some ml -> thread_ok (h_rng w) ml t -> thread_ok (h_rng w) ml t') ->
  (forall s k, t_now t = Some (s, Asking k) -> returned (h_rng w) s) ->
  (forall R p, agrees (h_rng w) R -> rel R t p -> rel R t' p) ->
  sim s1 s2 (mkh (h_mem w) (h_g w) (set_ht (h_thr w) i t') (h_rng w)).
Proof.
  intros (Hr & Lx & Ht & Hb & Hk) Hi Hok Hask Hrel. split; [exact Hr|]. cbn [h_thr h_rng h_mem h_g]. split; [now rewrite length_ht|]. split; [|split].
  - intros j ml t2 Hml Hj. destruct (Nat.eq_dec i j) as [<-|Hn].
    + rewrite (nth_ht_eq _ _ _ _ Hi) in Hj. injection Hj as <-. apply (Hok ml Hml), (Ht i ml t Hml Hi).
    + rewrite nth_ht_ne in Hj by exact Hn. eapply Ht; eassumption.
  - intros s c rq Hc Hq. cbn [h_rng h_thr] in *. destruct (Hb s c rq Hc Hq) as [H|[H|(j & t2 & k & Hj & Hn)]]; [auto|auto|].
    destruct (Nat.eq_dec i j) as [<-|Hij].
    + rewrite Hi in Hj. injection Hj as <-. destruct (Hask s k Hn) as (c' & Hc' & Ep). rewrite Hc in Hc'. injection Hc' as <-. auto.
    + right; right. exists j, t2, k. rewrite nth_ht_ne by exact Hij. auto.
  - intros R HA. destruct (Hk R HA) as (thr & E & L & H). exists thr. split; [exact E|]. split; [exact L|].
    intros j t2 p Hj Hp. destruct (Nat.eq_dec i j) as [<-|Hn].
    + rewrite (nth_ht_eq _ _ _ _ Hi) in Hj. injection Hj as <-. apply (Hrel R p HA). eapply H; eassumption.
    + rewrite nth_ht_ne in Hj by exact Hn. eapply H; eassumption.
Qed.
(** A turn in which thread i acts on the memory. *)
Lemma sim_act s1 s2 w i t t' (pp : (nat -> list Z) -> prog (list Z)) mem' g' : sim s1 s2 w -> nth_error (h_thr w) i = Some t ->
  (forall ml, nth_error ls i = Some ml -> thread_ok (h_rng w) ml t -> thread_ok (h_rng w) ml t') ->
  (forall s k, t_now t <> Some (s, Asking k)) ->
  (forall R p, rel R t p -> step p (h_mem w) (h_g w) = (pp R, mem', g')) -> (forall R, rel R t' (pp R)) ->
  sim (s1 ++ [i]) s2 (mkh mem' g' (set_ht (h_thr w) i t') (h_rng w)).
Proof.
  intros (Hr & Lx & Ht & Hb & Hk) Hi Hok Hask Hst Hrel. split; [exact Hr|]. cbn [h_thr h_rng h_mem h_g]. split; [now rewrite length_ht|]. split; [|split].
  - intros j ml t2 Hml Hj. destruct (Nat.eq_dec i j) as [<-|Hn].
    + rewrite (nth_ht_eq _ _ _ _ Hi) in Hj. injection Hj as <-. apply (Hok ml Hml), (Ht i ml t Hml Hi).
    + rewrite nth_ht_ne in Hj by exact Hn. eapply Ht; eassumption.
  - intros s c rq Hc Hq. cbn [h_rng h_thr] in *. destruct (Hb s c rq Hc Hq) as [H|[H|(j & t2 & k & Hj & Hn)]]; [auto|auto|].
    destruct (Nat.eq_dec i j) as [<-|Hij]; [rewrite Hi in Hj; injection Hj as <-; destruct (Hask s k Hn)|].
    right; right. exists j, t2, k. rewrite nth_ht_ne by exact Hij. auto.
  - intros R HA. destruct (Hk R HA) as (thr & E & L & H). destruct (nth_error thr i) as [p|] eqn:Ep.
    2:{ apply nth_error_None in Ep. assert (i < length ls)%nat by (rewrite <- Lx; apply nth_error_Some; congruence). lia. }
    exists (set_thr thr i (pp R)). split; [|split; [now rewrite length_thr|]].
    { rewrite exec_app, E. cbn [exec fold_left]. unfold turn. cbn [w_thr w_mem w_g]. rewrite Ep, (Hst R p (H i t p Hi Ep)). reflexivity. }
    intros j t2 p2 Hj Hp. destruct (Nat.eq_dec i j) as [<-|Hn].
    + rewrite (nth_ht_eq _ _ _ _ Hi) in Hj. injection Hj as <-. rewrite (nth_set_eq _ _ _ _ Ep) in Hp. injection Hp as <-. apply Hrel.
    + rewrite nth_ht_ne in Hj by exact Hn. rewrite nth_set_ne in Hp by exact Hn. eapply H; eassumption.
Qed.
(** A turn of thread i in randombytes. *)
Lemma sim_rng s1 s2 w i t s k a : sim s1 s2 w -> nth_error (h_thr w) i = Some t -> t_now t = Some (s, Asking k) ->
  sim s1 (s2 ++ [(s, a)]) (mkh (h_mem w) (h_g w) (h_thr w) (rturn st (s, a) (h_rng w))).
Proof.
  intros HM Hi Hn. pose proof (sim_rinv _ _ _ HM) as HI. destruct HM as (Hr & Lx & Ht & Hb & Hk).
  split; [cbn [h_rng]; rewrite rexec_snoc, <- Hr; reflexivity|]. cbn [h_thr h_rng h_mem h_g]. split; [exact Lx|]. split; [|split].
  - intros j ml t2 Hml Hj. destruct (Ht j ml t2 Hml Hj) as (E & done & L & Hd & Hnow). split; [exact E|]. exists done. split; [exact L|].
    split; [intros s0 a0 H1 H2; apply returned_turn, (Hd s0 a0 H1 H2)|]. destruct (t_now t2) as [[s0 ph]|]; [|exact Hnow].
    destruct Hnow as (a0 & H1 & H2). exists a0. split; [exact H1|]. destruct ph; try exact H2. intros H3. apply returned_turn; auto.
  - intros s0 c rq Hc Hq. cbn [h_rng h_thr] in *. rewrite nth_turn in Hc. destruct (nth_error (rw_calls (h_rng w)) s0) as [c0|] eqn:Ec; [|discriminate].
    injection Hc as Hc. destruct (Nat.eq_dec s s0) as [<-|Hne]; [right; right; exists i, t, k; auto|]. subst c0. apply (Hb s0 c rq Ec Hq).
  - intros R HA. apply Hk. eapply agrees_turn; eassumption.
Qed.

(** The turn. *)
Theorem sim_turn s1 s2 w ia : sim s1 s2 w -> let i := fst ia in let w' := hturn C st rqs ia w in
  (forall j, j <> i -> nth_error (h_thr w') j = nth_error (h_thr w) j) /\
  match nth_error (h_thr w) i with
  | None => sim s1 s2 w'
  | Some t => exists t', nth_error (h_thr w') i = Some t' /\
     ((* at the end *) (t_now t = None /\ t_left t = [] /\ w' = w /\ sim s1 s2 w') \/
      (* on to the next stage *) ((stage t < stage t')%nat /\ h_rng w' = h_rng w /\ sim s1 s2 w') \/
      (* an action on memory *) (stage t' = stage t /\ (rank (t_now t) = 1 \/ rank (t_now t) = 3)%nat /\ h_rng w' = h_rng w /\ sim (s1 ++ [i]) s2 w') \/
      (* an action in random.c *) (exists s k, t_now t = Some (s, Asking k) /\ t' = t /\ sim s1 (s2 ++ [(s, snd ia)]) w' /\ h_rng w' = rturn st (s, snd ia) (h_rng w) /\
            ~ returned (h_rng w) s))
  end.
Proof.
  intros HM. pose proof (sim_rinv _ _ _ HM) as HI. destruct ia as [i a]. cbn [fst snd]. unfold hturn, hstep. cbn [fst snd].
  destruct (nth_error (h_thr w) i) as [t|] eqn:Hi; [|split; [reflexivity|exact HM]].
  assert (Hml : exists ml, nth_error ls i = Some ml).
  { destruct HM as (_ & Lx & _). assert (i < length ls)%nat by (rewrite <- Lx; apply nth_error_Some; congruence). destruct (nth_error ls i) eqn:E; eauto. apply nth_error_None in E. lia. }
  destruct Hml as (ml & Hml). pose proof HM as (_ & _ & HOK & _). pose proof (HOK i ml t Hml Hi) as Hok.
  assert (OTH : forall t2, forall j, j <> i -> nth_error (set_ht (h_thr w) i t2) j = nth_error (h_thr w) j) by (intros t2 j Hj; apply nth_ht_ne; congruence).
  destruct t as [me [[s ph]|] left codes]; cbn [t_now t_left t_me t_codes] in *.
  - destruct ph as [p k|k|p].
    + (* before *)
      destruct p as [x|e|x kk|x v kk|kk|v kk].
      1: { split; [apply OTH|]. eexists. split; [apply (nth_ht_eq _ _ _ _ Hi)|]. right; left. split; [unfold stage; cbn; lia|]. split; [reflexivity|].
           eapply sim_quiet; [exact HM|exact Hi| | |].
           - intros ml0 _ (E & done & L & Hd & a0 & H1 & H2). split; [exact E|]. exists done. cbn in *. split; [exact L|]. split; [exact Hd|]. exists a0. auto.
           - cbn. discriminate.
           - intros R p _ H. exact H. }
      all: match goal with |- context [step ?pp (h_mem _) _] => set (q := pp) in * end;
         destruct (step q (h_mem w) (h_g w)) as [[q' mem'] g'] eqn:Es;
         (split; [apply OTH|]; eexists; split; [apply (nth_ht_eq _ _ _ _ Hi)|]; right; right; left; split; [reflexivity|]; split; [left; reflexivity|]; split; [reflexivity|]);
         (eapply (sim_act _ _ _ _ _ _ (fun R => pbind (pbind q' (fun x => k x (R s))) (fun v => script C me R (codes ++ [v]) left))); [exact HM|exact Hi| | | |]);
         [ intros ml0 _ H; exact H
         | cbn; discriminate
         | intros R p H; unfold rel in H; cbn [t_now t_me t_codes t_left] in H; rewrite H; rewrite step_bind by (subst q; cbn; discriminate); rewrite step_bind by (subst q; discriminate); rewrite Es; reflexivity
         | intros R; reflexivity ].
    + (* in randombytes *)
      destruct Hok as (_ & done & _ & _ & a0 & Hl & _). cbn [t_left] in Hl.
      destruct (HSL i ml s a0 Hml ltac:(rewrite Hl; apply in_or_app; right; left; reflexivity)) as ([b n] & Hrq). pose proof HI as (LC & _ & _ & HC & _).
      destruct (nth_error (rw_calls (h_rng w)) s) as [c|] eqn:Hc.
      2:{ apply nth_error_None in Hc. assert (s < length rqs)%nat by (apply nth_error_Some; congruence). lia. }
      destruct (HC s b n c Hrq Hc) as (_ & _ & _ & _ & Hpc). rewrite Hrq. unfold pc_ok in Hpc.
      assert (NR : rc_pc c <> PRet 0 -> ~ returned (h_rng w) s) by (intros X (c' & Y & Z0); rewrite Hc in Y; injection Y as <-; contradiction).
      destruct (rc_pc c) eqn:Ec;
        try (rewrite (set_ht_id _ _ _ Hi); split; [reflexivity|]; cbn [h_thr]; eexists; split; [exact Hi|]; right; right; right; exists s, k; split; [reflexivity|]; split; [reflexivity|]; split; [eapply sim_rng; [exact HM|exact Hi|reflexivity]|split; [reflexivity|apply NR; discriminate]]).
      * destruct Hpc as (-> & _). assert (RT : returned (h_rng w) s) by (exists c; auto).
        split; [apply OTH|]. eexists. split; [apply (nth_ht_eq _ _ _ _ Hi)|]. right; left. split; [unfold stage; cbn; lia|]. split; [reflexivity|].
        eapply sim_quiet; [exact HM|exact Hi| | |].
        -- intros ml0 _ (E & done0 & L & Hd & a1 & H1 & H2). split; [exact E|]. exists done0. cbn in *. split; [exact L|]. split; [exact Hd|]. exists a1. auto.
        -- cbn. intros s0 k0 E. injection E as <- _. exact RT.
        -- intros R p HA H. cbn in H |- *. subst p. rewrite (HA s RT). unfold slot_bytes. rewrite Hrq. reflexivity.
      * contradiction.
    + (* after *)
      destruct p as [v|e|x kk|x v kk|kk|v kk].
      1: { split; [apply OTH|]. eexists. split; [apply (nth_ht_eq _ _ _ _ Hi)|]. right; left. split; [unfold stage; cbn; rewrite app_length; cbn; lia|]. split; [reflexivity|].
           eapply sim_quiet; [exact HM|exact Hi| | |].
           - intros ml0 _ (E & done & L & Hd & a0 & H1 & H2). split; [exact E|]. exists (done ++ [(s, a0)]). cbn in *. split; [rewrite !app_length, L; reflexivity|].
             split; [|now rewrite <- app_assoc]. intros s1' a1 Hin Ha. apply in_app_or in Hin. destruct Hin as [Hin|[Hin|[]]]; [exact (Hd s1' a1 Hin Ha)|]. injection Hin as <- <-. auto.
           - cbn. discriminate.
           - intros R p _ H. exact H. }
      all: match goal with |- context [step ?pp (h_mem _) _] => set (q := pp) in * end;
         destruct (step q (h_mem w) (h_g w)) as [[q' mem'] g'] eqn:Es;
         (split; [apply OTH|]; eexists; split; [apply (nth_ht_eq _ _ _ _ Hi)|]; right; right; left; split; [reflexivity|]; split; [right; reflexivity|]; split; [reflexivity|]);
         (eapply (sim_act _ _ _ _ _ _ (fun R => pbind q' (fun v => script C me R (codes ++ [v]) left))); [exact HM|exact Hi| | | |]);
         [ intros ml0 _ H; exact H
         | cbn; discriminate
         | intros R p H; unfold rel in H; cbn [t_now t_me t_codes t_left] in H; rewrite H; rewrite step_bind by (subst q; discriminate); rewrite Es; reflexivity
         | intros R; reflexivity ].
  - (* between two actions *)
    destruct left as [|[s ac] left].
    + rewrite (set_ht_id _ _ _ Hi). destruct w as [wm wg wt wr]. cbn [h_thr h_mem h_g h_rng] in *. split; [reflexivity|]. eexists. split; [exact Hi|]. left. auto.
    + split; [apply OTH|]. eexists. split; [apply (nth_ht_eq _ _ _ _ Hi)|]. right; left. split; [unfold stage; cbn; destruct ac; cbn; lia|]. split; [reflexivity|].
      eapply sim_quiet; [exact HM|exact Hi| | |].
      * intros ml0 _ (E & done & L & Hd & H1). split; [exact E|]. exists done. cbn in *. split; [exact L|]. split; [exact Hd|]. exists ac. split; [exact H1|]. destruct ac; cbn; auto; discriminate.
      * cbn. discriminate.
      * intros R p _ H. cbn in H |- *. subst p. destruct ac; reflexivity.
Qed.
Lemma sim_start : sim [] [] (mkh mem0 g0 (map fresh ls) r0).
Proof.
  split; [reflexivity|]. cbn [h_thr h_rng h_mem h_g]. split; [apply map_length|]. split; [|split].
  - intros i ml t Hml Hi. rewrite nth_error_map, Hml in Hi. injection Hi as <-. split; [reflexivity|]. exists []. cbn. split; [reflexivity|]. split; [contradiction|reflexivity].
  - intros s c rq Hc Hq. cbn [h_rng] in Hc. rewrite S0, nth_error_map, Hq in Hc. injection Hc as <-. auto.
  - intros R _. exists (scripts C R ls). split; [reflexivity|]. split; [apply map_length|].
    intros i t p Hi Hp. unfold scripts in Hp. rewrite nth_error_map in Hi, Hp. destruct (nth_error ls i) as [ml|]; [|discriminate]. injection Hi as <-. injection Hp as <-. reflexivity.
Qed.
Lemma sim_next s1 s2 w ia : sim s1 s2 w -> exists s1' s2', sim s1' s2' (hturn C st rqs ia w).
Proof.
  intros H. pose proof (sim_turn s1 s2 w ia H) as (_ & X). cbv zeta in X. destruct (nth_error (h_thr w) (fst ia)) as [t|]; [|eauto].
  destruct X as (t' & _ & [(_ & _ & _ & X)|[(_ & _ & X)|[(_ & _ & _ & X)|(s & k & _ & _ & X & _)]]]); eauto.
Qed.
Lemma sim_exec sched : forall s1 s2 w, sim s1 s2 w -> exists s1' s2', sim s1' s2' (hexec C st rqs sched w).
Proof.
  induction sched as [|ia s IH]; intros s1 s2 w H; [exists s1, s2; exact H|].
  destruct (sim_next s1 s2 w ia H) as (s1' & s2' & H'). cbn [hexec fold_left]. eapply IH, H'.
Qed.
End Sim.
