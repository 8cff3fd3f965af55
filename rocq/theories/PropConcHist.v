(** C45: threads that use the library again and again, together (Unix). *)
From Verif Require Import CSem Params FrodoSpec Macrify Kem KemWp FrodoFacts PropKem Conc ConcProofs ConcKem ConcKemProofs PropConcKem
  Random ConcRandom ConcRandomProofs PropConcRandom ConcLib ConcLibProofs Process PropProcess ConcHist ConcHistProofs.

(** ** What FrodoKEM prescribes *)
(** The memory after an action that is given the random bytes r. *)
Definition effect_of (P : params) (g : genA) (r : list Z) (a : action) (mem : list Z) : list Z :=
  match a with
  | AKeyPair pk sk =>
      let '(PK, SK) := KeyGen P g (zslice r 0 (pCB P)) (zslice r (pCB P) (pCB P)) (zslice r (2 * pCB P) 16) in
      stored (stored mem pk PK) sk SK
  | AEnc ct ss pk => let '(CT, SS) := Encaps P g (zslice mem pk (pkBytes P)) r in stored (stored mem ct CT) ss SS
  | ADec ss ct sk => stored mem ss (Decaps P g (zslice mem sk (skBytes P)) (zslice mem ct (ctBytes P)))
  | AStore a x => stored mem a x
  end.
(** ... and after a list of actions; action number s is given R s. *)
Fixpoint after_all (P : params) (g : genA) (R : nat -> list Z) (l : list (nat * action)) (mem : list Z) : list Z :=
  match l with [] => mem | (s, a) :: l => after_all P g R l (effect_of P g (R s) a mem) end.
(** Every action's arguments are in order when its turn comes. *)
Fixpoint in_order (P : params) (g : genA) (R : nat -> list Z) (l : list (nat * action)) (mem : list Z) : Prop :=
  match l with [] => True | (s, a) :: l => fits P mem a /\ in_order P g R l (effect_of P g (R s) a mem) end.
(** R has as many random bytes for every action as it asks for. *)
Definition sized (P : params) (R : nat -> list Z) (l : list (nat * action)) : Prop :=
  forall s a, In (s, a) l -> bytestr (takes P a) (R s).
(** What an action may read or write: regions (address, length). What it writes: PropProcess.written. *)
Definition used (P : params) (a : action) : list (Z * Z) :=
  written P a ++ match a with
  | AEnc _ _ pk => [(pk, pkBytes P)]
  | ADec _ ct sk => [(ct, ctBytes P); (sk, skBytes P)]
  | _ => []
  end.
Definition writes_at (P : params) (l : list (nat * action)) (x : Z) : Prop := exists s a, In (s, a) l /\ within (written P a) x.
Definition uses_at (P : params) (l : list (nat * action)) (x : Z) : Prop := exists s a, In (s, a) l /\ within (used P a) x.

(** The setting: what a thread does is in order whatever random bytes it gets, no thread writes
    where another reads or writes, and every action has a buffer for its random bytes. *)
Definition setting (C : config) (mem : list Z) (ls : list (Z * list (nat * action))) (stk : list Z) (rqs : list (Z * Z)) (lock : Z) (fds : list Z) (st : Z -> Z) : Prop :=
  let P := cP C in
  valid P /\ build_ok C /\ reentrant C /\
  (forall i me l R, nth_error ls i = Some (me, l) -> sized P R l -> in_order P (cGen C) R l mem) /\
  (forall i j me me' l l' x, i <> j -> nth_error ls i = Some (me, l) -> nth_error ls j = Some (me', l') -> writes_at P l x -> uses_at P l' x -> False) /\
  (forall i me l s a, nth_error ls i = Some (me, l) -> In (s, a) l -> exists b, nth_error rqs s = Some (b, takes P a)) /\
  NoDup (concat (map (fun ml => map fst (snd ml)) ls)) /\
  requests_ok stk rqs /\ device_ok lock fds /\ forall p, 0 <= st p < 256.
Definition hstart (mem : list Z) (g : Z) (ls : list (Z * list (nat * action))) (stk : list Z) (rqs : list (Z * Z)) (lock : Z) (fds : list Z) (pos : Z) : hworld :=
  mkh mem g (map fresh ls) (start stk lock fds pos rqs).

(** ** One action alone *)
Lemma cut3 (r : list Z) a : 0 <= a -> zlen r = 2 * a + 16 -> zslice r 0 a ++ zslice r a a ++ zslice r (2 * a) 16 = r.
Proof.
  intros Ha L. apply list_ext; [rewrite !zlen_app, !zlen_zslice by lia; lia|]. rewrite !zlen_app, !zlen_zslice by lia. intros i Hi.
  destruct (Z.ltb_spec i a); [rewrite znth_app1, znth_zslice by (rewrite ?zlen_zslice by lia; lia); f_equal; lia|].
  rewrite znth_app2 by (rewrite zlen_zslice by lia; lia). rewrite zlen_zslice by lia.
  destruct (Z.ltb_spec (i - a) a); [rewrite znth_app1, znth_zslice by (rewrite ?zlen_zslice by lia; lia); f_equal; lia|].
  rewrite znth_app2 by (rewrite zlen_zslice by lia; lia). rewrite zlen_zslice, znth_zslice by lia. f_equal; lia.
Qed.
Lemma action_alone C me mem a r : valid (cP C) -> build_ok C -> reentrant C -> fits (cP C) mem a -> bytestr (takes (cP C) a) r ->
  obeys (within (used (cP C) a)) (within (written (cP C) a)) (action_r C me a r) mem /\
  forall g, solo (action_r C me a r) mem g = (ret 0, effect_of (cP C) (cGen C) r a mem, g).
Proof.
  intros V Hb Hre Hf (Lr & Br). set (P := cP C) in *.
  assert (HS : uses_state C = false) by (unfold uses_state; destruct Hre as [E|E]; [rewrite E; reflexivity|destruct (cGen C), (cAes C); congruence]).
  assert (HSZ : 0 < pN P /\ 0 < pCB P /\ 0 < pD P * pN P) by (destruct (sizes C V) as (? & ? & ? & ? & ? & ? & ? & ?); auto).
  destruct a as [pk sk|ct ss pk|ss ct sk|a x]; cbn [fits takes action_r effect_of] in *.
  - destruct Hf as (F1 & F2 & F3). assert (E3 := cut3 r (pCB P) ltac:(lia) Lr).
    pose proof (C05_keypair C (given r) 0 mem pk sk (zslice r 0 (pCB P)) (zslice r (pCB P) (pCB P)) (zslice r (2 * pCB P) 16) V) as H. fold P in H.
    rewrite E3 in H. specialize (H ltac:(split; [rewrite zlen_zslice; lia|apply inrange_zslice, Br]) ltac:(split; [rewrite zlen_zslice; lia|apply inrange_zslice, Br]) ltac:(split; [rewrite zlen_zslice; lia|apply inrange_zslice, Br])
      ltac:(exists []; reflexivity) F1 F2 F3).
    destruct (KeyGen P (cGen C) _ _ _) as [PK SK]. destruct H as (l & t & E).
    destruct (keypair_ref C me HS HSZ (given r) mem pk sk _ _ E) as (O & bv & mem' & S & (E1 & E2)). cbn [fst snd] in E1, E2. subst bv mem'. split; [|exact S].
    eapply obeys_mono; [| |exact O]; cbn [used written app]; unfold in_range, within; intros a [Ha|Ha]; eexists; eexists; (split; [|exact Ha]); cbn [In]; auto.
  - destruct Hf as (F1 & F2 & F3 & F4 & F5).
    pose proof (C05_enc C (given r) 0 mem ct ss pk (zslice mem pk (pkBytes P)) r V Hb (conj Lr Br) ltac:(exists []; reflexivity) (conj F3 eq_refl) F4 F1 F2 F5) as H. fold P in H.
    destruct (Encaps P (cGen C) _ _) as [CT SS]. destruct H as (l & t & E).
    destruct (enc_ref C me HS HSZ (given r) mem ct ss pk _ _ E) as (O & bv & mem' & S & (E1 & E2)). cbn [fst snd] in E1, E2. subst bv mem'. split; [|exact S].
    eapply obeys_mono; [| |exact O]; cbn [used written app]; unfold in_range, within; intros a Ha; repeat destruct Ha as [Ha|Ha]; eexists; eexists; (split; [|exact Ha]); cbn [In]; auto.
  - destruct Hf as (F1 & F2 & F3 & F4 & F5 & F6).
    destruct (C05_dec C mem ss ct sk (zslice mem ct (ctBytes P)) (zslice mem sk (skBytes P)) V Hb (conj F3 eq_refl) F5 F6 (conj F2 eq_refl) F4 F1) as (l & t & E). fold P in E.
    destruct (dec_ref C me HS HSZ mem ss ct sk _ _ E) as (O & bv & mem' & S & (E1 & E2)). cbn [fst snd] in E1, E2. subst bv mem'. split; [|exact S].
    eapply obeys_mono; [| |exact O]; cbn [used written app]; unfold in_range, within; intros a Ha; repeat destruct Ha as [Ha|Ha]; eexists; eexists; (split; [|exact Ha]); cbn [In]; auto.
  - destruct Hf as (F1 & F2). split.
    + apply obeys_bind; [|intros; exact I]. apply obeys_store; [lia|lia|]. intros i Hi. exists a, (zlen x). cbn. auto.
    + intros g. rewrite solo_bind, solo_store by lia. reflexivity.
Qed.

(** ** A list of actions alone *)
Lemma after_all_ext P g R R' l : forall mem, (forall s a, In (s, a) l -> R s = R' s) -> after_all P g R l mem = after_all P g R' l mem.
Proof.
  induction l as [|[s a] l IH]; intros mem H; [reflexivity|]. cbn [after_all]. rewrite (H s a ltac:(left; reflexivity)). apply IH. intros s' a' Hin. apply (H s' a'). right; exact Hin.
Qed.
Lemma in_order_app P g R l l' : forall mem, in_order P g R (l ++ l') mem -> in_order P g R l mem.
Proof. induction l as [|[s a] l IH]; intros mem H; [exact I|]. cbn in *. destruct H as (H1 & H2). split; [exact H1|apply IH, H2]. Qed.
Lemma in_order_ext P g R R' l : forall mem, (forall s a, In (s, a) l -> R s = R' s) -> in_order P g R l mem -> in_order P g R' l mem.
Proof.
  induction l as [|[s a] l IH]; intros mem H; [auto|]. cbn [in_order]. rewrite (H s a ltac:(left; reflexivity)). intros (H1 & H2). split; [exact H1|]. apply IH; [|exact H2]. intros s' a' Hin. apply (H s' a'). right; exact Hin.
Qed.
Section Alone.
Variables (C : config) (me : Z).
Let P := cP C.
Hypothesis V : valid P.
Hypothesis Hb : build_ok C.
Hypothesis Hre : reentrant C.
Lemma script_alone R l : forall codes mem, sized P R l -> in_order P (cGen C) R l mem ->
  obeys (uses_at P l) (writes_at P l) (script C me R codes l) mem /\
  forall g, solo (script C me R codes l) mem g = (ret (codes ++ repeat 0 (length l)), after_all P (cGen C) R l mem, g).
Proof.
  induction l as [|[s a] l IH]; intros codes mem Hs Ho; cbn [script in_order after_all] in *.
  - split; [exact I|]. intros g. cbn. now rewrite app_nil_r.
  - destruct Ho as (Hf & Ho). assert (Ha : bytestr (takes P a) (R s)) by (apply Hs; left; reflexivity).
    destruct (action_alone C me mem a (R s) V Hb Hre Hf Ha) as (O & S). fold P in O, S.
    assert (Hs' : sized P R l) by (intros s' a' Hin; apply Hs; right; exact Hin). split.
    + apply obeys_bind.
      * eapply obeys_mono; [| |exact O]; intros x Hx; exists s, a; (split; [left; reflexivity|exact Hx]).
      * intros v mem' g E. rewrite S in E. injection E as <- <-. destruct (IH (codes ++ [0]) _ Hs' Ho) as (O' & _).
        eapply obeys_mono; [| |exact O']; intros x (s' & a' & Hin & Hx); exists s', a'; (split; [right; exact Hin|exact Hx]).
    + intros g. rewrite solo_bind, S. cbn [ret]. destruct (IH (codes ++ [0]) _ Hs' Ho) as (_ & S'). unfold ret. rewrite S'. cbn [length repeat]. rewrite <- app_assoc. reflexivity.
Qed.
(** The codes of the actions done come first. *)
Lemma script_codes R l : forall codes mem g c mem' g', solo (script C me R codes l) mem g = (ret c, mem', g') -> exists x, c = codes ++ x.
Proof.
  induction l as [|[s a] l IH]; intros codes mem g c mem' g'; cbn [script].
  - cbn. intros E. injection E as -> _ _. exists []. now rewrite app_nil_r.
  - rewrite solo_bind. destruct (solo (action_r C me a (R s)) mem g) as [[[v t|e] m1] g1]; [|discriminate].
    intros E. destruct (IH _ _ _ _ _ _ E) as (x & ->). rewrite <- app_assoc. eauto.
Qed.

(** The number of actions on memory is bounded, whatever the random bytes. *)
Lemma max_byte (A : Z -> nat -> Prop) : (forall b T T', A b T -> (T <= T')%nat -> A b T') -> forall k : nat,
  (forall b, 0 <= b < Z.of_nat k -> exists T, A b T) -> exists T, forall b, 0 <= b < Z.of_nat k -> A b T.
Proof.
  intros Hm k. induction k as [|k IH]; intros H; [exists O; lia|]. destruct IH as (T & HT); [intros b Hbb; apply H; lia|]. destruct (H (Z.of_nat k) ltac:(lia)) as (T' & HT').
  exists (T + T')%nat. intros b Hbb. destruct (Z.eq_dec b (Z.of_nat k)) as [->|]; [apply (Hm _ T'); [exact HT'|lia]|apply (Hm _ T); [apply HT; lia|lia]].
Qed.
Lemma max_bytes k : forall (A : list Z -> nat -> Prop), (forall r T T', A r T -> (T <= T')%nat -> A r T') ->
  (forall r, length r = k -> bytes_ok r -> exists T, A r T) -> exists T, forall r, length r = k -> bytes_ok r -> A r T.
Proof.
  induction k as [|k IH]; intros A Hm H.
  - destruct (H [] eq_refl ltac:(constructor)) as (T & HT). exists T. intros [|] E; [intros _; exact HT|discriminate].
  - destruct (max_byte (fun b T => forall r, length r = k -> bytes_ok r -> A (b :: r) T)) with (k := 256%nat) as (T & HT).
    + intros b T T' HA HT r Hr Br. apply (Hm _ T); auto.
    + intros b Hbb. apply IH; [intros r T T' HA HT; eapply Hm; eauto|]. intros r Hr Br. apply H; [cbn; lia|constructor; [exact Hbb|exact Br]].
    + exists T. intros [|b r] E Br; [discriminate|]. inversion Br as [|? ? B1 B2]; subst. apply HT; [exact B1|cbn in E; lia|exact B2].
Qed.
Lemma actions_bind {A B} (p : prog A) (f : A -> prog B) mem g v t mem' g' : solo p mem g = (Ok v t, mem', g') ->
  actions (pbind p f) mem g = (actions p mem g + actions (f v) mem' g')%nat.
Proof.
  revert mem g. induction p as [x|e|x k IH|x y k IH|k IH|y k IH]; intros mem g E; cbn in *; try discriminate.
  - injection E as -> _ -> ->. reflexivity.
  - destruct (in_mem mem x); [|discriminate]. now rewrite (IH _ _ _ E).
  - destruct (in_mem mem x); [|discriminate]. now rewrite (IH _ _ E).
  - now rewrite (IH _ _ _ E).
  - now rewrite (IH _ _ E).
Qed.
Lemma script_bound g l : forall (Q : (nat -> list Z) -> Prop) codes mem, (forall R, Q R -> sized P R l /\ in_order P (cGen C) R l mem) ->
  exists T, forall R, Q R -> (actions (script C me R codes l) mem g <= T)%nat.
Proof.
  induction l as [|[s a] l IH]; intros Q codes mem HQ; [exists O; intros; cbn; lia|].
  destruct (max_bytes (Z.to_nat (takes P a)) (fun r T => forall R, Q R -> R s = r -> (actions (script C me R codes ((s, a) :: l)) mem g <= T)%nat)) as (T & HT).
  - intros r T T' H HT R HR E. specialize (H R HR E). lia.
  - intros r Lr Br. destruct (IH (fun R => Q R /\ R s = r) (codes ++ [0]) (effect_of P (cGen C) r a mem)) as (T & HT).
    { intros R (HR & E). destruct (HQ R HR) as (H1 & (_ & H2)). rewrite E in H2. split; [intros s' a' Hin; apply H1; right; exact Hin|exact H2]. }
    exists (actions (action_r C me a r) mem g + T)%nat. intros R HR E. destruct (HQ R HR) as (H1 & (Hf & H2)).
    assert (Ha : bytestr (takes P a) (R s)) by (apply H1; left; reflexivity).
    destruct (action_alone C me mem a (R s) V Hb Hre Hf Ha) as (_ & S). fold P in S. cbn [script]. rewrite (actions_bind _ _ _ _ _ _ _ _ (S g)).
    rewrite E. specialize (HT R (conj HR E)). lia.
  - exists T. intros R HR. destruct (HQ R HR) as (H1 & _). destruct (H1 s a ltac:(left; reflexivity)) as (L & Br). apply (HT (R s)); [unfold zlen in L; lia|exact Br|exact HR|reflexivity].
Qed.
End Alone.

(** ** The run seen from the memory and from random.c *)
(** Random bytes for the actions, given the state reached: those delivered, and zeros. *)
Definition chosen (rqs : list (Z * Z)) (r : rworld) (s : nat) : list Z :=
  match nth_error (rw_calls r) s with
  | Some c => match rc_pc c with
              | PRet _ => slot_bytes rqs r s
              | _ => match nth_error rqs s with Some (_, n) => zrep n 0 | None => [] end
              end
  | None => []
  end.
(** The bytes of the device at the positions src. *)
Definition drawn (rqs : list (Z * Z)) (st : Z -> Z) (src : nat -> Z -> Z) (s : nat) : list Z :=
  match nth_error rqs s with Some (_, n) => ztab n (fun k => st (src s k)) | None => [] end.
Definition sources (rqs : list (Z * Z)) (st : Z -> Z) (pos : Z) (r : rworld) (src : nat -> Z -> Z) : Prop :=
  (forall i a n, nth_error rqs i = Some (a, n) -> returned r i ->
       forall k, 0 <= k < n -> znth (rw_mem r) (a + k) = st (src i k) /\ pos <= src i k < rw_pos r) /\
  (forall i a n, nth_error rqs i = Some (a, n) -> returned r i -> forall k l, 0 <= k < l -> l < n -> src i k < src i l) /\
  (forall i j a n b m, i <> j -> nth_error rqs i = Some (a, n) -> nth_error rqs j = Some (b, m) -> returned r i -> returned r j ->
       forall k l, 0 <= k < n -> 0 <= l < m -> src i k <> src j l).

Lemma after_all_app P g R l l' : forall mem, after_all P g R (l ++ l') mem = after_all P g R l' (after_all P g R l mem).
Proof. induction l as [|[s a] l IH]; intros mem; cbn; auto. Qed.

Section Run.
Variables (C : config) (mem : list Z) (g : Z) (LS : list (Z * list (nat * action))) (stk : list Z) (rqs : list (Z * Z)) (lock : Z) (fds : list Z) (pos : Z) (st : Z -> Z).
Hypothesis HS : setting C mem LS stk rqs lock fds st.
(** Threads that do only the first of their actions. *)
Variable ls : list (Z * list (nat * action)).
Hypothesis Hpre : forall i me l, nth_error ls i = Some (me, l) -> exists rest, nth_error LS i = Some (me, l ++ rest).
Notation P := (cP C).
Notation simm := (sim C st mem g ls rqs (start stk lock fds pos rqs)).
Notation w0 := (hstart mem g ls stk rqs lock fds pos).

Lemma set_req : forall i a n, nth_error rqs i = Some (a, n) -> 0 <= n < 2147483648 /\ 0 <= a /\ a + n <= zlen stk.
Proof. destruct HS as (_ & _ & _ & _ & _ & _ & _ & (Hq & _) & _). intros i a n H. destruct (Hq i a n H) as (? & ? & ?). lia. Qed.
Lemma set_dis : forall i j a n b m, i <> j -> nth_error rqs i = Some (a, n) -> nth_error rqs j = Some (b, m) -> a + n <= b \/ b + m <= a.
Proof. destruct HS as (_ & _ & _ & _ & _ & _ & _ & (_ & Hq) & _). exact Hq. Qed.
Lemma set_inv : rinv st stk pos rqs (start stk lock fds pos rqs).
Proof. destruct HS as (_ & _ & _ & _ & _ & _ & _ & Hq & Hd & _). apply start_inv; assumption. Qed.
Lemma set_slot i ml s a : nth_error ls i = Some ml -> In (s, a) (snd ml) -> exists b, nth_error rqs s = Some (b, takes P a).
Proof.
  destruct ml as [me l]. intros Hi Hin. destruct (Hpre i me l Hi) as (rest & HL). destruct HS as (_ & _ & _ & _ & _ & Hs & _).
  apply (Hs i me _ s a HL). apply in_or_app. left. exact Hin.
Qed.
Lemma set_slot' i ml s a : nth_error ls i = Some ml -> In (s, a) (snd ml) -> exists rq, nth_error rqs s = Some rq.
Proof. intros H1 H2. destruct (set_slot i ml s a H1 H2) as (b & H). eauto. Qed.
Lemma sim_run sched : exists s1 s2, simm s1 s2 (hexec C st rqs sched w0).
Proof. apply (sim_exec C st mem g ls stk pos rqs _ set_req set_dis set_inv set_slot' sched [] []). apply sim_start. reflexivity. Qed.
Lemma simm_rinv s1 s2 w : simm s1 s2 w -> rinv st stk pos rqs (h_rng w).
Proof. apply (sim_rinv C st mem g ls stk pos rqs _ set_req set_dis set_inv). Qed.

Lemma have_sources s1 s2 w : simm s1 s2 w -> exists src, sources rqs st pos (h_rng w) src.
Proof.
  intros (E & _). unfold sources. rewrite E. destruct HS as (_ & _ & _ & _ & _ & _ & _ & Hq & Hd & _).
  destruct (C37_threads st stk lock fds pos rqs s2 Hq Hd) as (_ & _ & (src & A1 & A2 & A3) & _). exists src. auto.
Qed.
Lemma agrees_chosen r : agrees rqs r (chosen rqs r).
Proof. intros s (c & Hc & Ep). unfold chosen. rewrite Hc, Ep. reflexivity. Qed.
Lemma slot_drawn r src s : rinv st stk pos rqs r -> sources rqs st pos r src -> returned r s -> slot_bytes rqs r s = drawn rqs st src s.
Proof.
  intros (_ & LM & _) (A1 & _) Hr. unfold slot_bytes, drawn. destruct (nth_error rqs s) as [[b n]|] eqn:E; [|reflexivity].
  destruct (set_req s b n E) as (Hn & Hb & Hl). apply list_ext; [rewrite zlen_zslice, zlen_ztab by lia; reflexivity|].
  rewrite zlen_zslice by lia. intros k Hk. rewrite znth_zslice, znth_ztab by lia. apply (A1 s b n E Hr k Hk).
Qed.
Lemma chosen_bytes r s b n : rinv st stk pos rqs r -> (exists src, sources rqs st pos r src) -> nth_error rqs s = Some (b, n) -> bytestr n (chosen rqs r s).
Proof.
  intros HI (src & Hsrc) E. destruct (set_req s b n E) as (Hn & _). pose proof HI as (L & _ & _ & HC & _).
  destruct (nth_error (rw_calls r) s) as [c|] eqn:Ec; [|apply nth_error_None in Ec; assert (s < length rqs)%nat by (apply nth_error_Some; congruence); lia].
  assert (Z0 : bytestr n (zrep n 0)) by (split; [apply zlen_zrep; lia|apply inrange_zrep0; lia]).
  unfold chosen. rewrite Ec, E. destruct (rc_pc c) as [| | | | | | | |v|] eqn:Ep; try exact Z0.
  destruct (HC s b n c E Ec) as (_ & _ & _ & _ & Hp). unfold pc_ok in Hp. rewrite Ep in Hp. destruct Hp as (-> & _).
  rewrite (slot_drawn r src s HI Hsrc) by (exists c; auto). unfold drawn. rewrite E. split; [apply zlen_ztab; lia|]. apply inrange_ztab. intros. apply HS.
Qed.
Lemma chosen_sized s1 s2 w i me l : simm s1 s2 w -> nth_error LS i = Some (me, l) -> sized P (chosen rqs (h_rng w)) l.
Proof.
  intros HM Hi s a Hin. destruct HS as (_ & _ & _ & _ & _ & Hs & _). destruct (Hs i me l s a Hi Hin) as (b & Hb).
  eapply chosen_bytes; [eapply simm_rinv, HM|eapply have_sources, HM|exact Hb].
Qed.

Lemma view s1 s2 w R : simm s1 s2 w -> agrees rqs (h_rng w) R -> (forall i me l, nth_error LS i = Some (me, l) -> sized P R l) ->
  (zlen (h_mem w) = zlen mem /\ h_g w = g) /\
  (forall x, (forall i me l, nth_error ls i = Some (me, l) -> ~ writes_at P l x) -> znth (h_mem w) x = znth mem x) /\
  forall i me l t, nth_error ls i = Some (me, l) -> nth_error (h_thr w) i = Some t ->
    exists p m, rel C R t p /\ (forall me' L x, nth_error LS i = Some (me', L) -> uses_at P L x -> znth (h_mem w) x = znth m x) /\
      solo p m g = (ret (repeat 0 (length l)), after_all P (cGen C) R l mem, g) /\
      (actions p m g = actions (script C me R [] l) mem g - count_occ Nat.eq_dec s1 i)%nat.
Proof.
  intros (_ & Lx & _ & _ & Hk) HA HZ. destruct (Hk R HA) as (thr & E & L & Hrel). pose proof HS as (V & Hb & Hre & Hord & Hap & _).
  set (Rf := fun i x => exists me l, nth_error LS i = Some (me, l) /\ uses_at P l x).
  set (Wf := fun i x => exists me l, nth_error ls i = Some (me, l) /\ writes_at P l x).
  assert (SUB : forall l rest x, (writes_at P l x -> writes_at P (l ++ rest) x) /\ (uses_at P l x -> uses_at P (l ++ rest) x)).
  { intros l rest x. split; intros (s & a & Hin & Hx); exists s, a; (split; [apply in_or_app; left; exact Hin|exact Hx]). }
  assert (AL : forall i me l, nth_error ls i = Some (me, l) ->
    obeys (uses_at P l) (writes_at P l) (script C me R [] l) mem /\
    forall gg, solo (script C me R [] l) mem gg = (ret (repeat 0 (length l)), after_all P (cGen C) R l mem, gg)).
  { intros i me l Hi. destruct (Hpre i me l Hi) as (rest & HL). apply (script_alone C me V Hb Hre R l [] mem).
    - intros s a Hin. apply (HZ i me _ HL). apply in_or_app; left; exact Hin.
    - eapply in_order_app. apply (Hord i me _ R HL). apply (HZ i me _ HL). }
  assert (HO : forall i p, nth_error (scripts C R ls) i = Some p -> obeys (Rf i) (Wf i) p mem).
  { intros i p Hp. unfold scripts in Hp. rewrite nth_error_map in Hp. destruct (nth_error ls i) as [[me l]|] eqn:Ei; [|discriminate]. injection Hp as <-. cbn [fst snd].
    destruct (AL i me l Ei) as (O & _). destruct (Hpre i me l Ei) as (rest & HL). eapply obeys_mono; [| |exact O].
    - intros x Hx. exists me, (l ++ rest). split; [exact HL|]. apply SUB, Hx.
    - intros x Hx. exists me, l. auto. }
  assert (HD : forall i j x, i <> j -> Wf i x -> Rf j x -> False).
  { intros i j x Hij (me & l & Hi & Hx) (me' & l' & Hj & Hy). destruct (Hpre i me l Hi) as (rest & HL).
    apply (Hap i j me me' (l ++ rest) l' x Hij HL Hj); [apply SUB, Hx|exact Hy]. }
  pose proof (inv_exec _ (scripts C R ls) Rf Wf mem g HD s1 _ [] (inv_init _ (scripts C R ls) Rf Wf mem g HO)) as (I1 & I2 & I3 & I4 & I5).
  rewrite E in I1, I2, I3, I4, I5. cbn [w_mem w_g w_thr app] in *. split; [split; [exact I1|exact I2]|]. split.
  { intros x Hx. apply I3. intros i p _ (me & l & Hi & Hw). exact (Hx i me l Hi Hw). }
  intros i me l t Hi Ht. assert (Hp0 : nth_error (scripts C R ls) i = Some (script C me R [] l)) by (unfold scripts; rewrite nth_error_map, Hi; reflexivity).
  destruct (nth_error thr i) as [p|] eqn:Ep; [|apply I4 in Ep; congruence].
  destruct (I5 i _ p Hp0 Ep) as (m & M1 & M2 & M3 & M4 & M5). exists p, m. split; [eapply Hrel; eassumption|]. split.
  { intros me' L0 x HL Hx. apply M3. exists me', L0. auto. }
  split; [rewrite M4; apply (AL i me l Hi)|exact M5].
Qed.

(** What the view says of a thread. *)
Lemma view_codes s1 s2 w i t : simm s1 s2 w -> nth_error (h_thr w) i = Some t ->
  t_codes t = repeat 0 (length (t_codes t)) /\ (forall s e, t_now t <> Some (s, After (Fault e))) /\ (forall s e k, t_now t <> Some (s, Before (Fault e) k)).
Proof.
  intros HM Ht. assert (Hi : exists me l, nth_error ls i = Some (me, l)).
  { destruct HM as (_ & Lx & _). assert (i < length ls)%nat by (rewrite <- Lx; apply nth_error_Some; congruence).
    destruct (nth_error ls i) as [[me l]|] eqn:E; [eauto|apply nth_error_None in E; lia]. }
  destruct Hi as (me & l & Hi). destruct (view s1 s2 w (chosen rqs (h_rng w)) HM (agrees_chosen _) (fun i me l => chosen_sized s1 s2 w i me l HM)) as (_ & _ & Hv).
  destruct (Hv i me l t Hi Ht) as (p & m & Hr & _ & Hs & _).
  assert (PRE : forall c x n, c ++ x = repeat 0 n -> c = repeat 0 (length c)).
  { intros c x n Hc. assert (A : Forall (fun z => z = 0) (c ++ x)) by (rewrite Hc; clear; induction n; cbn; constructor; auto).
    apply Forall_app in A. destruct A as (A & _). clear - A. induction A as [|z c Hz A IH]; cbn; congruence. }
  unfold rel in Hr. destruct t as [me' n left codes]. cbn [t_now t_codes t_left t_me] in *. destruct n as [[s ph]|].
  - assert (Q : exists q : prog Z, p = pbind q (fun v => script C me' (chosen rqs (h_rng w)) (codes ++ [v]) left) /\
        (forall e, ph = After (Fault e) -> q = Fault e) /\ (forall e k, ph = Before (Fault e) k -> q = Fault e)).
    { destruct ph as [q k|k|q]; eexists; (split; [exact Hr|]); split; intros; try discriminate; try congruence.
      - injection H as -> ->. reflexivity. }
    destruct Q as (q & -> & Q1 & Q2). rewrite solo_bind in Hs. destruct (solo q m g) as [[[v tr|e] m1] g1] eqn:Eq; [|discriminate].
    destruct (script_codes C me' _ _ _ _ _ _ _ _ Hs) as (x & Hx). rewrite <- app_assoc in Hx. symmetry in Hx. split; [eapply PRE; exact Hx|].
    split; intros; intros E; injection E as -> ->; [rewrite (Q1 e eq_refl) in Eq|rewrite (Q2 e k eq_refl) in Eq]; discriminate.
  - subst p. destruct (script_codes C me' _ _ _ _ _ _ _ _ Hs) as (x & Hx). split; [eapply PRE; symmetry; exact Hx|]. split; discriminate.
Qed.
Lemma view_end s1 s2 w i me l t src : simm s1 s2 w -> sources rqs st pos (h_rng w) src -> nth_error ls i = Some (me, l) -> nth_error (h_thr w) i = Some t -> t_now t = None -> t_left t = [] ->
  forall me' L x, nth_error LS i = Some (me', L) -> uses_at P L x -> znth (h_mem w) x = znth (after_all P (cGen C) (drawn rqs st src) l mem) x.
Proof.
  intros HM Hsrc Hi Ht Hn Hl me' L x HL Hx.
  destruct (view s1 s2 w (chosen rqs (h_rng w)) HM (agrees_chosen _) (fun i me l => chosen_sized s1 s2 w i me l HM)) as (_ & _ & Hv).
  destruct (Hv i me l t Hi Ht) as (p & m & Hr & Hm & Hs & _). unfold rel in Hr. rewrite Hn, Hl in Hr. cbn [script] in Hr. subst p. cbn in Hs. injection Hs as _ Hs.
  rewrite (Hm me' L x HL Hx), Hs. f_equal. apply after_all_ext. intros s a Hin.
  pose proof HM as (_ & _ & Hok & _). destruct (Hok i (me, l) t Hi Ht) as (_ & done & _ & Hd & Hnow). rewrite Hn, Hl, app_nil_r in Hnow. cbn [snd] in Hnow. subst done.
  destruct (asks_a a) eqn:Ea.
  - pose proof (Hd s a Hin Ea) as Hret. rewrite (agrees_chosen (h_rng w) s Hret). apply slot_drawn; [eapply simm_rinv, HM|exact Hsrc|exact Hret].
  - destruct (set_slot i (me, l) s a Hi Hin) as (b & Hb). assert (E0 : takes P a = 0) by (destruct a; try discriminate Ea; reflexivity). rewrite E0 in Hb.
    destruct (chosen_bytes (h_rng w) s b 0 (simm_rinv _ _ _ HM) (have_sources _ _ _ HM) Hb) as (L0 & _). unfold drawn. rewrite Hb. change (ztab 0 (fun k => st (src s k))) with (@nil Z).
    destruct (chosen rqs (h_rng w) s) as [|z y]; [reflexivity|]. rewrite zlen_cons in L0. pose proof (zlen_nonneg y). lia.
Qed.
End Run.

(** ** A thread that stops after n of its actions *)
Section Cut.
Variables (C : config) (st : Z -> Z) (rqs : list (Z * Z)) (i n : nat) (tail : list (nat * action)).
(** In v, thread i lacks the actions of tail. *)
Definition cut_rel (w v : hworld) : Prop :=
  h_mem w = h_mem v /\ h_g w = h_g v /\ h_rng w = h_rng v /\ (forall j, j <> i -> nth_error (h_thr w) j = nth_error (h_thr v) j) /\
  exists me now left codes, nth_error (h_thr v) i = Some (mkt me now left codes) /\ nth_error (h_thr w) i = Some (mkt me now (left ++ tail) codes) /\
    (length codes + (match now with None => 0 | _ => 1 end) + length left)%nat = n.
Definition past (w : hworld) : Prop := exists t, nth_error (h_thr w) i = Some t /\ (n < length (t_codes t) \/ length (t_codes t) = n /\ t_now t <> None)%nat.
Lemma past_turn ia w : past w -> past (hturn C st rqs ia w).
Proof.
  intros (t & Ht & Hp). destruct ia as [j a]. unfold hturn. cbn [fst snd]. destruct (nth_error (h_thr w) j) as [t2|] eqn:Ej; [|exists t; auto].
  destruct (hstep C st rqs a t2 (h_mem w) (h_g w) (h_rng w)) as [[[t' mem'] g'] r'] eqn:E. unfold past. cbn [h_thr].
  destruct (Nat.eq_dec j i) as [->|Hn]; [|exists t; rewrite nth_ht_ne by exact Hn; auto].
  rewrite Ej in Ht. injection Ht as ->. exists t'. split; [eapply nth_ht_eq, Ej|]. destruct t as [me now left codes]. unfold hstep in E. cbn [t_now t_left t_me t_codes] in *.
  assert (K : forall (x y : hthread) (m m' : list Z) (h h' : Z) (q q' : rworld), (x, m, h, q) = (y, m', h', q') -> y = x) by (intros; congruence).
  destruct now as [[s ph]|].
  - destruct ph as [p k|k|p].
    + destruct p; try (destruct (step _ (h_mem w) (h_g w)) as [[? ?] ?]); apply K in E; subst t'; cbn; (destruct Hp as [Hp|(Hp & _)]; [left; exact Hp|right; split; [exact Hp|discriminate]]).
    + destruct (nth_error (rw_calls (h_rng w)) s) as [c|], (nth_error rqs s) as [[b m]|]; try destruct (rc_pc c); apply K in E; subst t'; cbn; (destruct Hp as [Hp|(Hp & _)]; [left; exact Hp|right; split; [exact Hp|discriminate]]).
    + destruct p; try (destruct (step _ (h_mem w) (h_g w)) as [[? ?] ?]); apply K in E; subst t'; cbn; try (destruct Hp as [Hp|(Hp & _)]; [left; exact Hp|right; split; [exact Hp|discriminate]]).
      left. rewrite app_length. cbn. destruct Hp as [Hp|(Hp & _)]; lia.
  - destruct Hp as [Hp|(_ & Hp)]; [|congruence]. destruct left as [|[s ac] left]; apply K in E; subst t'; cbn; left; exact Hp.
Qed.
Lemma cut_turn ia w v : cut_rel w v -> cut_rel (hturn C st rqs ia w) (hturn C st rqs ia v) \/ past (hturn C st rqs ia w).
Proof.
  intros (E1 & E2 & E3 & HO & me & nw & left & codes & Hv & Hw & Hc). destruct ia as [j a]. unfold hturn. cbn [fst snd]. rewrite E1, E2, E3.
  destruct (Nat.eq_dec j i) as [->|Hn].
  2:{ left. rewrite (HO j Hn). destruct (nth_error (h_thr v) j) as [t2|] eqn:Ej; [|repeat (split; [assumption|]); exists me, nw, left, codes; auto].
      destruct (hstep C st rqs a t2 (h_mem v) (h_g v) (h_rng v)) as [[[t' mem'] g'] r']. unfold cut_rel. cbn [h_mem h_g h_thr h_rng]. repeat (split; [reflexivity|]).
      split; [|exists me, nw, left, codes; rewrite !nth_ht_ne by congruence; auto].
      intros k Hk. destruct (Nat.eq_dec j k) as [<-|Hjk]; [rewrite (nth_ht_eq _ _ _ _ Ej); rewrite <- (HO j Hn) in Ej; rewrite (nth_ht_eq _ _ _ _ Ej); reflexivity|].
      rewrite !nth_ht_ne by exact Hjk. apply HO, Hk. }
  rewrite Hv, Hw.
  assert (K : forall me' nw' left' codes' mem' g' r', (length codes' + (match nw' with None => 0 | _ => 1 end) + length left')%nat = n ->
    cut_rel (mkh mem' g' (set_ht (h_thr w) i (mkt me' nw' (left' ++ tail) codes')) r') (mkh mem' g' (set_ht (h_thr v) i (mkt me' nw' left' codes')) r')).
  { intros. unfold cut_rel. cbn [h_mem h_g h_thr h_rng]. repeat (split; [reflexivity|]). split; [intros k Hk; rewrite !nth_ht_ne by congruence; apply HO, Hk|].
    exists me', nw', left', codes'. rewrite (nth_ht_eq _ _ _ _ Hv), (nth_ht_eq _ _ _ _ Hw). auto. }
  unfold hstep, now. cbn [t_now t_left t_me t_codes].
  destruct nw as [[s ph]|].
  - left. destruct ph as [p k|k|p].
    + destruct p; try (destruct (step _ (h_mem v) (h_g v)) as [[? ?] ?]); apply K; exact Hc.
    + destruct (nth_error (rw_calls (h_rng v)) s) as [c|], (nth_error rqs s) as [[b m]|]; try destruct (rc_pc c); apply K; exact Hc.
    + destruct p; try (destruct (step _ (h_mem v) (h_g v)) as [[? ?] ?]); apply K; try exact Hc. rewrite app_length. cbn in *. lia.
  - destruct left as [|[s ac] left]; cbn [app].
    + destruct tail as [|[s ac] tl].
      * left. apply (K me None []). exact Hc.
      * right. eexists. cbn [h_thr]. split; [eapply nth_ht_eq, Hw|]. cbn in *. right. split; [lia|discriminate].
    + left. apply K. cbn in *. lia.
Qed.
Lemma cut_exec sched : forall w v, cut_rel w v -> cut_rel (hexec C st rqs sched w) (hexec C st rqs sched v) \/ past (hexec C st rqs sched w).
Proof.
  induction sched as [|ia sched IH]; intros w v H; [left; exact H|]. cbn [hexec fold_left]. destruct (cut_turn ia w v H) as [H'|H']; [apply IH, H'|]. right.
  revert H'. generalize (hturn C st rqs ia w). clear. induction sched as [|ia sched IH]; intros w H; [exact H|]. cbn [fold_left]. apply IH, past_turn, H.
Qed.
End Cut.

(** ** C45: whatever the schedule and whatever the operating system answers *)
(** Thread i has done its n-th action, which has the buffer s for its random bytes. *)
Definition did (w : hworld) (ls : list (Z * list (nat * action))) (i n s : nat) (a : action) : Prop :=
  exists me l t, nth_error ls i = Some (me, l) /\ nth_error (h_thr w) i = Some t /\ nth_error l n = Some (s, a) /\ (n < length (t_codes t))%nat.
Definition faulted (w : hworld) (i : nat) : Prop :=
  exists t s e, nth_error (h_thr w) i = Some t /\ (t_now t = Some (s, After (Fault e)) \/ exists k, t_now t = Some (s, Before (Fault e) k)).

Lemma nodup_pos (ls : list (Z * list (nat * action))) : forall i j n m x y s, NoDup (concat (map (fun ml => map fst (snd ml)) ls)) ->
  nth_error ls i = Some x -> nth_error ls j = Some y -> nth_error (map fst (snd x)) n = Some s -> nth_error (map fst (snd y)) m = Some s -> i = j /\ n = m.
Proof.
  induction ls as [|ml ls IH]; intros i j n m x y s ND Hi Hj Hn Hm; [destruct i; discriminate|]. cbn [map concat] in ND.
  assert (IN : forall k z q, nth_error ls k = Some z -> nth_error (map fst (snd z)) q = Some s -> In s (concat (map (fun ml => map fst (snd ml)) ls))).
  { intros k z q Hk Hq. apply in_concat. exists (map fst (snd z)). split; [apply (in_map (fun ml => map fst (snd ml))), (nth_error_In _ _ Hk)|apply (nth_error_In _ _ Hq)]. }
  assert (SEP : forall u v, NoDup (u ++ v) -> In s u -> In s v -> False).
  { clear. induction u as [|z u IH]; intros v ND Hu Hv; [exact Hu|]. cbn in ND. inversion ND as [|? ? N1 N2]; subst. destruct Hu as [->|Hu]; [apply N1, in_or_app; right; exact Hv|eapply IH; eassumption]. }
  destruct i as [|i], j as [|j]; cbn in Hi, Hj.
  - injection Hi as <-. injection Hj as <-. split; [reflexivity|]. eapply NoDup_nth_error; [|apply nth_error_Some; rewrite Hn; discriminate|congruence].
    clear - ND. induction (map fst (snd ml)) as [|z u IHu]; [constructor|]. cbn in ND. inversion ND as [|? ? N1 N2]; subst. constructor; [intros X; apply N1, in_or_app; left; exact X|apply IHu, N2].
  - injection Hi as <-. exfalso. eapply SEP; [exact ND|eapply nth_error_In, Hn|eapply IN; eassumption].
  - injection Hj as <-. exfalso. eapply SEP; [exact ND|eapply nth_error_In, Hm|eapply IN; eassumption].
  - destruct (IH i j n m x y s) as (-> & ->); auto. clear - ND. induction (map fst (snd ml)) as [|z u IHu]; [exact ND|]. cbn in ND. inversion ND; auto.
Qed.

Theorem C45_threads (C : config) (mem : list Z) (g : Z) (ls : list (Z * list (nat * action))) (stk : list Z) (rqs : list (Z * Z)) (lock : Z) (fds : list Z) (pos : Z) (st : Z -> Z) (sched : list (nat * answer)) :
  setting C mem ls stk rqs lock fds st ->
  let P := cP C in
  let w := hexec C st rqs sched (hstart mem g ls stk rqs lock fds pos) in
  zlen (h_mem w) = zlen mem /\ h_g w = g /\
  (forall x, (forall i me l, nth_error ls i = Some (me, l) -> ~ writes_at P l x) -> znth (h_mem w) x = znth mem x) /\
  (forall i, ~ faulted w i) /\
  (forall i t, nth_error (h_thr w) i = Some t -> t_codes t = repeat 0 (length (t_codes t))) /\
  exists src,
    (forall i me l n x, nth_error ls i = Some (me, l) -> between w i n -> uses_at P l x ->
       znth (h_mem w) x = znth (after_all P (cGen C) (drawn rqs st src) (firstn n l) mem) x) /\
    (forall i n s a, did w ls i n s a -> forall k, 0 <= k < takes P a -> pos <= src s k < rw_pos (h_rng w)) /\
    (forall i n s a, did w ls i n s a -> forall k k', 0 <= k < k' -> k' < takes P a -> src s k < src s k') /\
    (forall i n s a j m s' b, did w ls i n s a -> did w ls j m s' b -> (i, n) <> (j, m) ->
       forall k k', 0 <= k < takes P a -> 0 <= k' < takes P b -> src s k <> src s' k').
Proof.
  intros HS P w.
  assert (Hpre : forall i me l, nth_error ls i = Some (me, l) -> exists rest, nth_error ls i = Some (me, l ++ rest)) by (intros i me l H; exists []; rewrite app_nil_r; exact H).
  destruct (sim_run C mem g ls stk rqs lock fds pos st HS ls Hpre sched) as (s1 & s2 & HM). fold w in HM.
  destruct (view C mem g ls stk rqs lock fds pos st HS ls Hpre s1 s2 w _ HM (agrees_chosen _ _) (fun i me l => chosen_sized C mem g ls stk rqs lock fds pos st HS ls s1 s2 w i me l HM)) as ((V1 & V0) & V2 & _).
  split; [exact V1|]. split; [exact V0|].
  split; [exact V2|]. split.
  { intros i (t & s & e & Ht & Hf). destruct (view_codes C mem g ls stk rqs lock fds pos st HS ls Hpre s1 s2 w i t HM Ht) as (_ & F1 & F2).
    destruct Hf as [Hf|(k & Hf)]; [exact (F1 _ _ Hf)|exact (F2 _ _ _ Hf)]. }
  split; [intros i t Ht; apply (view_codes C mem g ls stk rqs lock fds pos st HS ls Hpre s1 s2 w i t HM Ht)|].
  destruct (have_sources C mem g ls stk rqs lock fds pos st HS ls s1 s2 w HM) as (src & Hsrc). exists src.
  split.
  { intros i me l n x Hi (t & Ht & Hnow & Hn) Hx. set (k := firstn n l).
    assert (Ln : (n <= length l)%nat).
    { destruct HM as (_ & _ & Hok & _). destruct (Hok i (me, l) t Hi Ht) as (_ & done & Ld & _ & Hl). rewrite Hnow in Hl. cbn [snd] in Hl. rewrite Hl, app_length. lia. }
    set (cutl := fix cutl (ls : list (Z * list (nat * action))) (i : nat) := match ls, i with [], _ => [] | _ :: ls, O => (me, k) :: ls | z :: ls, S i => z :: cutl ls i end).
    assert (C1 : forall LS j, nth_error LS j = Some (me, l) -> nth_error (cutl LS j) j = Some (me, k)) by (induction LS as [|z LS IH]; intros [|j] H; cbn in *; try discriminate; auto).
    assert (C2 : forall LS j q, q <> j -> nth_error (cutl LS j) q = nth_error LS q) by (induction LS as [|z LS IH]; intros [|j] [|q] H; cbn in *; auto; congruence).
    assert (Hpre' : forall j me' l', nth_error (cutl ls i) j = Some (me', l') -> exists rest, nth_error ls j = Some (me', l' ++ rest)).
    { intros j me' l' H. destruct (Nat.eq_dec j i) as [->|Hj]; [|rewrite C2 in H by exact Hj; exists []; rewrite app_nil_r; exact H].
      rewrite (C1 ls i Hi) in H. injection H as <- <-. exists (skipn n l). unfold k. rewrite firstn_skipn. exact Hi. }
    set (v := hexec C st rqs sched (hstart mem g (cutl ls i) stk rqs lock fds pos)).
    destruct (sim_run C mem g ls stk rqs lock fds pos st HS (cutl ls i) Hpre' sched) as (r1 & r2 & HV). fold v in HV.
    destruct (cut_exec C st rqs i n (skipn n l) sched (hstart mem g ls stk rqs lock fds pos) (hstart mem g (cutl ls i) stk rqs lock fds pos)) as [HC|HC].
    { unfold hstart, cut_rel. cbn [h_mem h_g h_rng h_thr]. repeat (split; [reflexivity|]). split; [intros j Hj; rewrite !nth_error_map, C2 by exact Hj; reflexivity|].
      exists me, None, k, []. rewrite !nth_error_map, Hi, (C1 ls i Hi). split; [reflexivity|]. split; [cbn; unfold fresh, k; cbn; rewrite firstn_skipn; reflexivity|]. cbn. unfold k. rewrite firstn_length. lia. }
    2:{ destruct HC as (t' & Ht' & Hp). fold w in Ht'. rewrite Ht in Ht'. injection Ht' as <-. destruct Hp as [Hp|(_ & Hp)]; [lia|congruence]. }
    fold w v in HC. destruct HC as (M1 & _ & M3 & _ & me' & nw & left & codes & Hv & Hw & Hc). rewrite Ht in Hw. injection Hw as ->. cbn in Hnow, Hn. subst nw.
    assert (left = []) as -> by (destruct left; [reflexivity|cbn in Hc; lia]). rewrite M1. rewrite M3 in Hsrc.
    apply (view_end C mem g ls stk rqs lock fds pos st HS (cutl ls i) Hpre' r1 r2 v i me k _ src HV Hsrc (C1 ls i Hi) Hv eq_refl eq_refl me l x Hi Hx). }
  assert (RET : forall i n s a, did w ls i n s a -> exists b, nth_error rqs s = Some (b, takes P a) /\ (0 < takes P a -> returned (h_rng w) s)).
  { intros i n s a (me & l & t & Hi & Ht & Hl & Hn). destruct HS as (_ & _ & _ & _ & _ & Hs & _). destruct (Hs i me l s a Hi (nth_error_In _ _ Hl)) as (b & Hb). exists b. split; [exact Hb|].
    intros Hpos. destruct HM as (_ & _ & Hok & _). destruct (Hok i (me, l) t Hi Ht) as (_ & done & Ld & Hd & Hnow). apply (Hd s a).
    - cbn [snd] in Hnow. assert (X : exists rest, l = done ++ rest) by (destruct (t_now t) as [[? ?]|]; [destruct Hnow as (? & H & _)|]; eauto). destruct X as (rest & ->).
      rewrite nth_error_app1 in Hl by lia. apply (nth_error_In _ _ Hl).
    - destruct a; cbn in *; auto; lia. }
  destruct Hsrc as (A1 & A2 & A3). split; [|split].
  - intros i n s a Hd k Hk. destruct (RET i n s a Hd) as (b & Hb & Hr). apply (A1 s b _ Hb (Hr ltac:(lia)) k Hk).
  - intros i n s a Hd k k' Hk Hk'. destruct (RET i n s a Hd) as (b & Hb & Hr). apply (A2 s b _ Hb (Hr ltac:(lia)) k k' Hk Hk').
  - intros i n s a j m s' b Hd Hd' Hne k k' Hk Hk'. destruct (RET i n s a Hd) as (bb & Hb & Hr). destruct (RET j m s' b Hd') as (bb' & Hb' & Hr').
    assert (Hss : s <> s').
    { intros <-. destruct Hd as (me & l & t & Hi & _ & Hl & _). destruct Hd' as (me' & l' & t' & Hj & _ & Hl' & _). destruct HS as (_ & _ & _ & _ & _ & _ & ND & _).
      destruct (nodup_pos ls i j n m (me, l) (me', l') s ND Hi Hj) as (-> & ->); [cbn; rewrite nth_error_map, Hl; reflexivity|cbn; rewrite nth_error_map, Hl'; reflexivity|apply Hne; reflexivity]. }
    apply (A3 s s' _ _ _ _ Hss Hb Hb' (Hr ltac:(lia)) (Hr' ltac:(lia)) k k' Hk Hk').
Qed.
Print Assumptions C45_threads.

(** ** Progress *)
Lemma turns_cons i j a s : turns i ((j, a) :: s) = ((if Nat.eq_dec j i then 1 else 0) + turns i s)%nat.
Proof. unfold turns. cbn [map fst count_occ]. destruct (Nat.eq_dec j i); lia. Qed.
Lemma turns_app i s1 s2 : turns i (s1 ++ s2) = (turns i s1 + turns i s2)%nat.
Proof. unfold turns. rewrite map_app, count_occ_app. reflexivity. Qed.
Lemma rank_le n : (rank n <= 3)%nat.
Proof. destruct n as [[s [p k|k|p]]|]; cbn; lia. Qed.
Lemma stage_inj t t' : stage t = stage t' -> length (t_codes t) = length (t_codes t') /\ rank (t_now t) = rank (t_now t').
Proof. unfold stage. pose proof (rank_le (t_now t)). pose proof (rank_le (t_now t')). lia. Qed.

Section Live.
Variables (C : config) (mem : list Z) (g : Z) (ls : list (Z * list (nat * action))) (stk : list Z) (rqs : list (Z * Z)) (lock : Z) (fds : list Z) (pos : Z) (st : Z -> Z).
Hypothesis HS : setting C mem ls stk rqs lock fds st.
Let Hpre : forall i me l, nth_error ls i = Some (me, l) -> exists rest, nth_error ls i = Some (me, l ++ rest).
Proof. intros i me l H. exists []. rewrite app_nil_r. exact H. Qed.
Let HRq := set_req C mem ls stk rqs lock fds st HS.
Let HDs := set_dis C mem ls stk rqs lock fds st HS.
Let HIn := set_inv C mem ls stk rqs lock fds pos st HS.
Let HSL := set_slot' C mem ls stk rqs lock fds st HS ls Hpre.
Notation P := (cP C).
Notation simm := (sim C st mem g ls rqs (start stk lock fds pos rqs)).
Notation run := (hexec C st rqs).
Let turn_sim := sim_turn C st mem g ls stk pos rqs (start stk lock fds pos rqs) HRq HDs HIn HSL.
Let simr := sim_rinv C st mem g ls stk pos rqs (start stk lock fds pos rqs) HRq HDs HIn.

Lemma hexec_app s1 s2 w : run (s1 ++ s2) w = run s2 (run s1 w).
Proof. apply fold_left_app. Qed.

(** What a thread has done after some turns. *)
Definition kept (s : list (nat * answer)) (s1' : list nat) (s2' : list (nat * answer)) (i : nat) (t t' : hthread) : Prop :=
  (stage t < stage t')%nat \/
  stage t' = stage t /\ ((rank (t_now t) = 1 \/ rank (t_now t) = 3)%nat -> count_occ Nat.eq_dec s1' i = turns i s) /\
  (forall sl k, t_now t = Some (sl, Asking k) -> t' = t /\ (turns i s <= turns sl s2')%nat).
Lemma stay s : forall s1 s2 w, simm s1 s2 w -> exists s1' s2', simm (s1 ++ s1') (s2 ++ s2') (run s w) /\
  h_rng (run s w) = rexec st s2' (h_rng w) /\
  (good_sched s -> good_sched s2') /\
  forall i t, nth_error (h_thr w) i = Some t -> exists t', nth_error (h_thr (run s w)) i = Some t' /\ kept s s1' s2' i t t'.
Proof.
  induction s as [|[j a] s IH]; intros s1 s2 w HM.
  - exists [], []. rewrite !app_nil_r. split; [exact HM|]. split; [reflexivity|]. split; [auto|]. intros i t Ht. exists t. split; [exact Ht|]. right. split; [reflexivity|]. split; [reflexivity|]. intros. split; [reflexivity|]. cbn. lia.
  - change (run ((j, a) :: s) w) with (run s (hturn C st rqs (j, a) w)). pose proof (turn_sim s1 s2 w (j, a) HM) as (Ho & Hc). cbv zeta in Ho, Hc. cbn [fst snd] in Ho, Hc.
    set (w' := hturn C st rqs (j, a) w) in *.
    assert (X : exists u1 u2, simm (s1 ++ u1) (s2 ++ u2) w' /\ h_rng w' = rexec st u2 (h_rng w) /\ (forall ia, In ia u2 -> snd ia = a) /\
      (forall i, i <> j -> count_occ Nat.eq_dec u1 i = O) /\
      forall i t, nth_error (h_thr w) i = Some t -> exists t', nth_error (h_thr w') i = Some t' /\ kept [(j, a)] u1 u2 i t t').
    { destruct (nth_error (h_thr w) j) as [t|] eqn:Ej.
      - destruct Hc as (t' & Ht' & Hc).
        assert (K : forall u1 u2, kept [(j, a)] u1 u2 j t t' -> (forall i, i <> j -> count_occ Nat.eq_dec u1 i = O) -> forall i t, nth_error (h_thr w) i = Some t -> exists t', nth_error (h_thr w') i = Some t' /\ kept [(j, a)] u1 u2 i t t').
        { intros u1 u2 Hk Hu i t0 Ht0. destruct (Nat.eq_dec i j) as [->|Hn]; [rewrite Ej in Ht0; injection Ht0 as <-; exists t'; auto|].
          exists t0. rewrite (Ho i Hn). split; [exact Ht0|]. right. split; [reflexivity|]. rewrite turns_cons. destruct (Nat.eq_dec j i); [congruence|]. split; [intros _; rewrite (Hu i Hn); reflexivity|]. intros. split; [reflexivity|]. unfold turns; cbn; lia. }
        destruct Hc as [(Hn & Hl & Ew & HM')|[(Hst & Er & HM')|[(Hst & Hrk & Er & HM')|(sl & k & Hn & -> & HM' & Er & _)]]].
        + exists [], []. rewrite !app_nil_r. split; [exact HM'|]. split; [rewrite Ew; reflexivity|]. split; [intros ia []|]. split; [reflexivity|]. apply K; [|reflexivity].
          rewrite Ew, Ej in Ht'. injection Ht' as <-. right. split; [reflexivity|]. rewrite Hn. cbn [rank]. split; [lia|discriminate].
        + exists [], []. rewrite !app_nil_r. split; [exact HM'|]. split; [exact Er|]. split; [intros ia []|]. split; [reflexivity|]. apply K; [|reflexivity]. left. exact Hst.
        + exists [j], []. rewrite !app_nil_r. split; [exact HM'|]. split; [exact Er|]. split; [intros ia []|].
          assert (Z : forall i, i <> j -> count_occ Nat.eq_dec [j] i = O) by (intros i Hn; cbn; destruct (Nat.eq_dec j i); congruence). split; [exact Z|]. apply K; [|exact Z].
          right. split; [exact Hst|]. split; [intros _; rewrite turns_cons; cbn; destruct (Nat.eq_dec j j); [reflexivity|congruence]|]. intros sl k En. rewrite En in Hrk. cbn in Hrk. lia.
        + exists [], [(sl, a)]. rewrite !app_nil_r. split; [exact HM'|]. split; [exact Er|]. split; [intros ia [<-|[]]; reflexivity|]. split; [reflexivity|]. apply K; [|reflexivity].
          right. split; [reflexivity|]. rewrite Hn. cbn [rank]. split; [lia|]. intros sl' k' E. injection E as <- <-. split; [reflexivity|]. rewrite !turns_cons. destruct (Nat.eq_dec j j), (Nat.eq_dec sl sl); cbn; lia.
      - exists [], []. rewrite !app_nil_r. split; [exact Hc|]. assert (Ew : w' = w) by (unfold w', hturn; cbn [fst]; rewrite Ej; reflexivity). rewrite Ew. split; [reflexivity|]. split; [intros ia []|]. split; [reflexivity|].
        intros i t Ht. exists t. split; [exact Ht|]. right. split; [reflexivity|]. rewrite turns_cons. destruct (Nat.eq_dec j i) as [<-|]; [congruence|]. split; [reflexivity|]. intros. split; [reflexivity|]. unfold turns; cbn; lia. }
    destruct X as (u1 & u2 & HM' & Er & Hu2 & Hu1 & Hk). destruct (IH _ _ _ HM') as (v1 & v2 & HM'' & Er' & Hg & Hk').
    exists (u1 ++ v1), (u2 ++ v2). rewrite !app_assoc. split; [exact HM''|]. split; [rewrite Er', Er; symmetry; apply fold_left_app|]. split.
    { intros HG ia Hia. apply in_app_or in Hia. destruct Hia as [Hia|Hia]; [rewrite (Hu2 ia Hia); apply (HG (j, a)); left; reflexivity|]. apply Hg; [|exact Hia]. intros x Hx. apply HG. right. exact Hx. }
    intros i t Ht. destruct (Hk i t Ht) as (t' & Ht' & K1). destruct (Hk' i t' Ht') as (t'' & Ht'' & K2). exists t''. split; [exact Ht''|].
    destruct K1 as [K1|(E1 & A1 & B1)]; [left; destruct K2 as [K2|(E2 & _)]; lia|]. destruct K2 as [K2|(E2 & A2 & B2)]; [left; lia|]. right.
    split; [congruence|]. destruct (stage_inj _ _ E1) as (_ & Rk). rewrite Rk in A2. change ((j, a) :: s) with ([(j, a)] ++ s). rewrite turns_app. split.
    + intros Hr. rewrite count_occ_app, (A1 Hr), (A2 Hr). reflexivity.
    + intros sl k En. destruct (B1 sl k En) as (-> & L1). destruct (B2 sl k En) as (-> & L2). split; [reflexivity|]. rewrite turns_app. lia.
Qed.
Lemma mono s s1 s2 w i t : simm s1 s2 w -> nth_error (h_thr w) i = Some t -> exists t', nth_error (h_thr (run s w)) i = Some t' /\ (stage t <= stage t')%nat.
Proof.
  intros HM Ht. destruct (stay s s1 s2 w HM) as (? & ? & _ & _ & _ & Hk). destruct (Hk i t Ht) as (t' & Ht' & K). exists t'. split; [exact Ht'|]. destruct K as [K|(K & _)]; lia.
Qed.

(** The thread is about to enter its next stage. *)
Definition ready (w : hworld) (t : hthread) : Prop :=
  match t_now t with
  | None => t_left t <> []
  | Some (s, Before (Ret _) _) => True
  | Some (s, Asking _) => returned (h_rng w) s
  | Some (s, After (Ret _)) => True
  | _ => False
  end.
Lemma ready_go s : forall s1 s2 w i t, simm s1 s2 w -> nth_error (h_thr w) i = Some t -> ready w t -> (1 <= turns i s)%nat ->
  exists t', nth_error (h_thr (run s w)) i = Some t' /\ (stage t < stage t')%nat.
Proof.
  induction s as [|[j a] s IH]; intros s1 s2 w i t HM Ht Hr Hn; [unfold turns in Hn; cbn in Hn; lia|]. rewrite turns_cons in Hn.
  change (run ((j, a) :: s) w) with (run s (hturn C st rqs (j, a) w)). pose proof (turn_sim s1 s2 w (j, a) HM) as (Ho & Hc). cbv zeta in Ho, Hc. cbn [fst snd] in Ho, Hc.
  destruct (sim_next C st mem g ls stk pos rqs _ HRq HDs HIn HSL s1 s2 w (j, a) HM) as (u1 & u2 & HM').
  destruct (Nat.eq_dec j i) as [->|Hne].
  - rewrite Ht in Hc. destruct Hc as (t' & Ht' & Hc). destruct (mono s u1 u2 _ i t' HM' Ht') as (t'' & Ht'' & Hm). exists t''. split; [exact Ht''|].
    enough (stage t < stage t')%nat by lia.
    destruct Hc as [(E1 & E2 & _)|[(Hst & _)|[(Hst & Hrk & _ & _)|(sl & k & En & _ & _ & _ & Hnr)]]]; [unfold ready in Hr; rewrite E1 in Hr; contradiction|exact Hst| |unfold ready in Hr; rewrite En in Hr; contradiction].
    exfalso. unfold hturn, hstep in Ht'. cbn [fst snd] in Ht'. rewrite Ht in Ht'. destruct t as [me [[sl ph]|] left codes]; cbn [t_now t_left t_me t_codes] in *; [|cbn in Hrk; lia].
    destruct ph as [[x|?|?|?|?|?] k|k|[x|?|?|?|?|?]]; unfold ready in Hr; cbn [t_now] in Hr; try contradiction; cbn in Hrk; try lia; cbn [h_thr] in Ht'; rewrite (nth_ht_eq _ _ _ _ Ht) in Ht'; injection Ht' as <-; unfold stage in Hst; cbn in Hst; try rewrite app_length in Hst; cbn in Hst; lia.
  - apply (IH u1 u2 _ i t HM'); [rewrite (Ho i ltac:(congruence)); exact Ht| |lia].
    unfold ready in *. destruct (t_now t) as [[sl [p k|k|p]]|]; auto.
    assert (X : h_rng (hturn C st rqs (j, a) w) = h_rng w \/ exists x, h_rng (hturn C st rqs (j, a) w) = rturn st (x, a) (h_rng w)).
    { destruct (nth_error (h_thr w) j) as [tj|] eqn:Ej; [|left; unfold hturn; cbn [fst]; rewrite Ej; reflexivity].
      destruct Hc as (t' & _ & [(_ & _ & -> & _)|[(_ & E & _)|[(_ & _ & E & _)|(x & _ & _ & _ & _ & E & _)]]]); eauto. }
    destruct X as [->|(x & ->)]; [exact Hr|apply returned_turn, Hr].
Qed.

(** A thread that is no more in its request has its bytes. *)
Lemma left_asking r r' ml t t' sl k : thread_ok r ml t -> thread_ok r' ml t' -> t_now t = Some (sl, Asking k) -> (stage t < stage t')%nat -> returned r' sl.
Proof.
  intros (_ & done & L & _ & H) (_ & done' & L' & Hd & H') En Hst. rewrite En in H. destruct H as (a & El & Ha).
  unfold stage in Hst. rewrite En in Hst. cbn [rank] in Hst. pose proof (rank_le (t_now t')).
  assert (AT : nth_error (snd ml) (length (t_codes t)) = Some (sl, a)) by (rewrite El, <- L, nth_error_app2, Nat.sub_diag by lia; reflexivity).
  destruct (Nat.eq_dec (length (t_codes t')) (length (t_codes t))) as [E|E].
  - destruct (t_now t') as [[s' ph]|]; cbn [rank] in Hst; [|lia]. destruct ph as [p k'|k'|p]; cbn [rank] in Hst; try lia. destruct H' as (a' & El' & Ha').
    rewrite El', nth_error_app2 in AT by lia. replace (length (t_codes t) - length done')%nat with O in AT by lia. injection AT as -> ->. auto.
  - apply (Hd sl a); [|exact Ha]. assert (X : exists rest, snd ml = done' ++ rest) by (destruct (t_now t') as [[? ?]|]; [destruct H' as (? & H' & _)|]; eauto). destruct X as (rest & Er).
    rewrite Er, nth_error_app1 in AT by lia. apply (nth_error_In _ _ AT).
Qed.
Lemma ok_at s1 s2 w i t : simm s1 s2 w -> nth_error (h_thr w) i = Some t -> exists ml, nth_error ls i = Some ml /\ thread_ok (h_rng w) ml t.
Proof.
  intros (_ & L & H & _) Ht. assert (i < length ls)%nat by (rewrite <- L; apply nth_error_Some; congruence).
  destruct (nth_error ls i) as [ml|] eqn:E; [eauto|apply nth_error_None in E; lia].
Qed.
(** While lock is -1 no call gets past opening the device. *)
Lemma leave_dist s : forall w i c c', good_sched s -> rinv st stk pos rqs w -> no_reset w -> nth_error (rw_calls w) i = Some c -> dist (rc_pc c) <> None ->
  nth_error (rw_calls (rexec st s w)) i = Some c' -> dist (rc_pc c') = None -> rw_lock (rexec st s w) <> -1.
Proof.
  induction s as [|[j a] s IH]; intros w i c c' Hg HI HN Hc Hd Hc' Hd'.
  - cbn in Hc'. rewrite Hc in Hc'. injection Hc' as <-. contradiction.
  - assert (Gs : good_sched s) by (intros ia Hia; apply Hg; right; exact Hia).
    assert (Ga : good_answer a) by (apply (Hg (j, a)); left; reflexivity).
    change (rexec st ((j, a) :: s) w) with (rexec st s (rturn st (j, a) w)) in *.
    assert (HI' : rinv st stk pos rqs (rturn st (j, a) w)) by (apply rinv_turn; assumption).
    assert (HN' : no_reset (rturn st (j, a) w)) by (apply no_reset_turn; assumption).
    destruct (Z.eq_dec (rw_lock w) (-1)) as [El|El]; [|apply (lock_exec st stk pos rqs HRq HDs); try assumption; eapply lock_turn; eassumption].
    pose proof (nth_turn st w j a i) as Hi'. rewrite Hc in Hi'.
    destruct (Nat.eq_dec j i) as [->|Hn]; [|apply (IH _ i c c' Gs HI' HN' Hi' Hd Hc' Hd')].
    apply (IH _ i _ c' Gs HI' HN' Hi'); [|exact Hc'|exact Hd']. pose proof (HN i c Hc) as Hns. destruct c as [b p n0 count]. unfold rstep. cbn [rc_pc rc_n rc_count rc_buf] in *.
    destruct Ga as (Go & _). destruct p as [| |fd| | | | |fd|v|e]; cbn in Hd; try congruence; unfold at_; cbn [fst rc_pc].
    + rewrite El. cbn. discriminate.
    + destruct (an_open a); [|congruence]. cbn. discriminate.
    + cbn. discriminate.
    + cbn. discriminate.
    + rewrite El. cbn. discriminate.
Qed.

(** A thread in its request gets its bytes. *)
Lemma request_ends s1 s2 w i t sl k r1 mid late r5 : simm s1 s2 w -> nth_error (h_thr w) i = Some t -> t_now t = Some (sl, Asking k) ->
  good_sched r1 -> good_sched mid -> good_sched late -> good_sched r5 ->
  (forall j, (j < length ls)%nat -> (1 <= turns j r1)%nat /\ (4 <= turns j mid)%nat /\ (1 <= turns j r5)%nat /\
     forall s a n, nth_error rqs s = Some (a, n) -> 3 * n + 6 <= Z.of_nat (turns j late)) ->
  exists t', nth_error (h_thr (run (r1 ++ mid ++ late ++ r5) w)) i = Some t' /\ (stage t < stage t')%nat.
Proof.
  intros HM Ht En G1 G2 G3 G5 HT. rewrite !hexec_app.
  assert (INJ : forall s1 s2 w j t, simm s1 s2 w -> nth_error (h_thr w) j = Some t -> (j < length ls)%nat) by (intros x y v j tj (_ & L & _) Hj; rewrite <- L; apply nth_error_Some; congruence).
  pose proof (INJ _ _ _ _ _ HM Ht) as Hi.
  destruct (stay r1 s1 s2 w HM) as (p1 & c1 & HM1 & E1 & GC1 & K1). specialize (GC1 G1). set (w1 := run r1 w) in *.
  destruct (stay mid _ _ w1 HM1) as (p2 & c2 & HM2 & E2 & GC2 & K2). specialize (GC2 G2). set (w2 := run mid w1) in *.
  destruct (stay late _ _ w2 HM2) as (p3 & c3 & HM3 & E3 & GC3 & K3). specialize (GC3 G3). set (w3 := run late w2) in *.
  assert (UP : forall s1 s2 v s t', simm s1 s2 v -> nth_error (h_thr v) i = Some t' -> (stage t < stage t')%nat -> exists t'', nth_error (h_thr (run s v)) i = Some t'' /\ (stage t < stage t'')%nat).
  { intros x y v s t' HMv Hv Hst. destruct (mono s x y v i t' HMv Hv) as (t'' & Ht'' & Hm). exists t''. split; [exact Ht''|lia]. }
  destruct (K1 i t Ht) as (t1 & Ht1 & [Q|(_ & _ & Q1)]).
  { destruct (UP _ _ w1 mid t1 HM1 Ht1 Q) as (x2 & X2 & S2). destruct (UP _ _ w2 late x2 HM2 X2 S2) as (x3 & X3 & S3). eapply (UP _ _ w3); eassumption. }
  destruct (Q1 sl k En) as (-> & T1). clear Q1.
  destruct (K2 i t Ht1) as (t2 & Ht2 & [Q|(_ & _ & Q2)]).
  { destruct (UP _ _ w2 late t2 HM2 Ht2 Q) as (x3 & X3 & S3). eapply (UP _ _ w3); eassumption. }
  destruct (Q2 sl k En) as (-> & T2). clear Q2.
  destruct (K3 i t Ht2) as (t3 & Ht3 & [Q|(_ & _ & Q3)]).
  { eapply (UP _ _ w3); eassumption. }
  destruct (Q3 sl k En) as (-> & T3). clear Q3.
  pose proof (simr _ _ _ HM) as I0. pose proof (simr _ _ _ HM1) as I1. pose proof (simr _ _ _ HM2) as I2. pose proof (simr _ _ _ HM3) as I3.
  assert (RQ : forall r s c, rinv st stk pos rqs r -> nth_error (rw_calls r) s = Some c -> exists rq, nth_error rqs s = Some rq).
  { intros r s c (L & _) Hc. destruct (nth_error rqs s) eqn:E; [eauto|]. apply nth_error_None in E. assert (s < length (rw_calls r))%nat by (apply nth_error_Some; congruence). lia. }
  assert (SAME : forall r r' s c, rinv st stk pos rqs r -> rinv st stk pos rqs r' -> nth_error (rw_calls r') s = Some c -> exists c', nth_error (rw_calls r) s = Some c').
  { intros r r' s c (L & _) (L' & _) Hc. destruct (nth_error (rw_calls r) s) eqn:E; [eauto|]. apply nth_error_None in E. assert (s < length (rw_calls r'))%nat by (apply nth_error_Some; congruence). lia. }
  assert (N1 : no_reset (h_rng w1)).
  { intros j c Hc Ep. destruct (SAME _ _ j c I0 I1 Hc) as (c0 & Hc0). destruct (RQ _ j c0 I0 Hc0) as (rq & Hrq). pose proof HM as (_ & _ & _ & HB & _).
    assert (R : (0 < turns j c1)%nat \/ (forall c, nth_error (rw_calls (h_rng w)) j = Some c -> rc_pc c <> PStore (-1))).
    { destruct (HB j c0 rq Hc0 Hrq) as [H|[H|(q & tq & kq & Hq & Enq)]].
      - right. rewrite Hc0. intros c' E. injection E as <-. rewrite H. discriminate.
      - right. rewrite Hc0. intros c' E. injection E as <-. rewrite H. discriminate.
      - left. destruct (K1 q tq Hq) as (tq' & Hq' & [Hst|(_ & _ & Q)]).
        + exfalso. destruct (ok_at _ _ _ _ _ HM Hq) as (ml & Hml & O1). pose proof HM1 as (_ & _ & O2 & _). destruct (left_asking _ _ ml tq tq' j kq O1 (O2 q ml tq' Hml Hq') Enq Hst) as (c' & Hc' & Ep'). congruence.
        + destruct (Q j kq Enq) as (_ & T). destruct (HT q (INJ _ _ _ _ _ HM Hq)) as (X & _). lia. }
    rewrite E1 in Hc. exact (no_reset_one st c1 (h_rng w) j GC1 R c Hc Ep). }
  assert (N2 : no_reset (h_rng w2)) by (rewrite E2; apply no_reset_exec; assumption).
  assert (CS : forall s1 s2 v, simm s1 s2 v -> nth_error (h_thr v) i = Some t -> exists c b n, nth_error (rw_calls (h_rng v)) sl = Some c /\ nth_error rqs sl = Some (b, n)).
  { intros x y v HMv Hv. destruct (ok_at _ _ _ _ _ HMv Hv) as (ml & Hml & (_ & done & _ & _ & Hnow)). rewrite En in Hnow. destruct Hnow as (a & El & _).
    destruct (HSL i ml sl a Hml ltac:(rewrite El; apply in_or_app; right; left; reflexivity)) as ([b n] & Hrq). pose proof (simr _ _ _ HMv) as (L & _).
    destruct (nth_error (rw_calls (h_rng v)) sl) as [c|] eqn:Ec; [eauto|]. apply nth_error_None in Ec. assert (sl < length rqs)%nat by (apply nth_error_Some; congruence). lia. }
  assert (L2 : rw_lock (h_rng w2) <> -1).
  { rewrite E2. destruct (Z.eq_dec (rw_lock (h_rng w1)) (-1)) as [El|El]; [|apply (lock_exec st stk pos rqs HRq HDs); assumption].
    pose proof I1 as (Ln & _ & _ & _ & (_ & _ & _ & H4) & _). destruct (H4 El) as [HP|(j & c & Hc & Hop)].
    - destruct (CS _ _ w1 HM1 Ht1) as (c & b & n & Hc & _).
      apply (lock_set st stk pos rqs HRq HDs c2 (h_rng w1) sl c 3 GC2 I1 N1 Hc); [rewrite (HP sl c Hc); reflexivity|]. destruct (HT i Hi) as (_ & X & _). lia.
    - destruct (RQ _ j c I1 Hc) as (rq & Hrq). pose proof HM1 as (_ & _ & _ & HB & _). destruct (HB j c rq Hc Hrq) as [H|[H|(q & tq & kq & Hq & Enq)]].
      + subst c. cbn in Hop. destruct rq. cbn in Hop. contradiction.
      + rewrite H in Hop. cbn in Hop. contradiction.
      + destruct (K2 q tq Hq) as (tq' & Hq' & [Hst|(_ & _ & Q)]).
        * destruct (ok_at _ _ _ _ _ HM1 Hq) as (ml & Hml & O1). pose proof HM2 as (_ & _ & O2 & _). destruct (left_asking _ _ ml tq tq' j kq O1 (O2 q ml tq' Hml Hq') Enq Hst) as (c' & Hc' & Ep').
          rewrite E2 in Hc'. eapply (leave_dist c2 (h_rng w1) j c c' GC2 I1 N1 Hc); [|exact Hc'|rewrite Ep'; reflexivity]. destruct (rc_pc c); cbn in Hop; try contradiction; discriminate.
        * destruct (Q j kq Enq) as (_ & T). destruct (HT q (INJ _ _ _ _ _ HM1 Hq)) as (_ & X & _).
          destruct (rc_pc c) eqn:Ep; cbn in Hop; try contradiction; (eapply (lock_set st stk pos rqs HRq HDs c2 (h_rng w1) j c _ GC2 I1 N1 Hc); [rewrite Ep; reflexivity|lia]). }
  destruct (CS _ _ w2 HM2 Ht2) as (c & b & n & Hc & Hrq).
  destruct (finish st stk pos rqs HRq HDs c3 (h_rng w2) sl c GC3 I2 N2 L2 Hc) as (c' & Hc' & Ep).
  { pose proof I2 as (_ & _ & _ & HC & _). destruct (HC sl b n c Hrq Hc) as (_ & E & ? & ? & _).
    destruct (HT i Hi) as (_ & _ & _ & X). specialize (X sl b n Hrq). unfold todo. destruct (rc_pc c); try lia. destruct (is_open _ _); lia. }
  rewrite <- E3 in Hc'. apply (ready_go r5 _ _ w3 i t HM3 Ht3); [unfold ready; rewrite En; exists c'; auto|]. apply (HT i Hi).
Qed.

(** A thread that is computing comes to the end of it. *)
Lemma ended_bind {A B} (q : prog A) (f : A -> prog B) m h : actions (pbind q f) m h = O -> (exists v, q = Ret v) \/ (exists e, q = Fault e).
Proof. destruct q; cbn; try discriminate; eauto. Qed.
Lemma computing_ends s1 s2 w i me l t : simm s1 s2 w -> nth_error ls i = Some (me, l) -> nth_error (h_thr w) i = Some t -> (rank (t_now t) = 1 \/ rank (t_now t) = 3)%nat ->
  exists T, forall s s', (T <= turns i s)%nat -> (1 <= turns i s')%nat ->
    exists t', nth_error (h_thr (run (s ++ s') w)) i = Some t' /\ (stage t < stage t')%nat.
Proof.
  intros HM Hi Ht Hrk. pose proof HS as (V & Hb & Hre & Hord & _).
  destruct (script_bound C me V Hb Hre g l (fun R => sized P R l) [] mem) as (T & HT); [intros R HR; split; [exact HR|apply (Hord i me l R Hi HR)]|].
  exists T. intros s s' Hs Hs'. rewrite hexec_app. destruct (stay s s1 s2 w HM) as (p1 & c1 & HM1 & _ & _ & K). set (w1 := run s w) in *.
  destruct (K i t Ht) as (t1 & Ht1 & [Q|(Est & Q & _)]).
  { destruct (mono s' _ _ w1 i t1 HM1 Ht1) as (t2 & Ht2 & Hm). exists t2. split; [exact Ht2|lia]. }
  specialize (Q Hrk). rewrite <- Est. destruct (stage_inj _ _ Est) as (_ & Rk). apply (ready_go s' _ _ w1 i t1 HM1 Ht1); [|exact Hs'].
  destruct (view C mem g ls stk rqs lock fds pos st HS ls Hpre _ _ w1 _ HM1 (agrees_chosen _ _) (fun i me l => chosen_sized C mem g ls stk rqs lock fds pos st HS ls _ _ w1 i me l HM1)) as (_ & _ & Hv).
  destruct (Hv i me l t1 Hi Ht1) as (p & m & Hr & _ & _ & Ha). rewrite count_occ_app, Q in Ha.
  pose proof (HT _ (chosen_sized C mem g ls stk rqs lock fds pos st HS ls _ _ w1 i me l HM1 Hi)) as HB. assert (A0 : actions p m g = O) by lia. clear Ha HB.
  destruct (view_codes C mem g ls stk rqs lock fds pos st HS ls Hpre _ _ w1 i t1 HM1 Ht1) as (_ & F1 & F2).
  unfold ready. unfold rel in Hr. rewrite <- Rk in Hrk. destruct (t_now t1) as [[sl [q k|k|q]]|]; cbn [rank] in Hrk; try lia.
  - subst p. destruct (ended_bind _ _ _ _ A0) as [(v & E)|(e & E)]; destruct q; try discriminate E; try exact I; destruct (F2 sl e0 k eq_refl).
  - subst p. destruct (ended_bind _ _ _ _ A0) as [(v & E)|(e & E)]; rewrite E in *; [exact I|destruct (F1 sl e eq_refl)].
Qed.

(** Fair schedules. *)
Variable f : nat -> nat * answer.
Hypothesis Fair : forall i n, (i < length ls)%nat -> exists m, (n <= m)%nat /\ fst (f m) = i.
Definition seg (n l : nat) : list (nat * answer) := map f (seq n l).
Lemma seg_add n a b : seg n (a + b) = seg n a ++ seg (n + a) b.
Proof. unfold seg. rewrite seq_app, map_app. reflexivity. Qed.
Lemma seg_one N : (N <= length ls)%nat -> forall n, exists l, forall i, (i < N)%nat -> (1 <= turns i (seg n l))%nat.
Proof.
  induction N as [|N IH]; intros HN n; [exists O; lia|]. destruct (IH ltac:(lia) n) as (l & Hl). destruct (Fair N (n + l)%nat ltac:(lia)) as (m & Hm & Em).
  exists (l + (m - (n + l) + 1))%nat. intros i Hi. rewrite seg_add, turns_app. destruct (Nat.eq_dec i N) as [->|Hn].
  - assert (1 <= turns N (seg (n + l) (m - (n + l) + 1)))%nat; [|lia]. unfold turns. apply count_occ_In. apply in_map_iff. exists (f m). split; [exact Em|]. apply in_map. apply in_seq. lia.
  - pose proof (Hl i ltac:(lia)). lia.
Qed.
Lemma seg_many K n : exists l, forall i, (i < length ls)%nat -> (K <= turns i (seg n l))%nat.
Proof.
  induction K as [|K (l & Hl)]; [exists O; lia|]. destruct (seg_one (length ls) (Nat.le_refl _) (n + l)%nat) as (l' & Hl').
  exists (l + l')%nat. intros i Hi. rewrite seg_add, turns_app. pose proof (Hl i Hi). pose proof (Hl' i Hi). lia.
Qed.
Variable n0 : nat.
Hypothesis Good : forall m, (n0 <= m)%nat -> good_answer (snd (f m)).
Lemma seg_good n l : (n0 <= n)%nat -> good_sched (seg n l).
Proof. intros Hn ia Hia. apply in_map_iff in Hia. destruct Hia as (m & <- & Hm). apply in_seq in Hm. apply Good. lia. Qed.
Notation w0 := (hstart mem g ls stk rqs lock fds pos).
Definition finished (w : hworld) (i : nat) : Prop := exists t, nth_error (h_thr w) i = Some t /\ t_now t = None /\ t_left t = [].

Lemma next_stage n i me l t : (n0 <= n)%nat -> nth_error ls i = Some (me, l) -> nth_error (h_thr (run (seg 0 n) w0)) i = Some t ->
  finished (run (seg 0 n) w0) i \/ exists n' t', (n <= n')%nat /\ nth_error (h_thr (run (seg 0 n') w0)) i = Some t' /\ (stage t < stage t')%nat.
Proof.
  intros Hn Hi Ht. destruct (sim_run C mem g ls stk rqs lock fds pos st HS ls Hpre (seg 0 n)) as (s1 & s2 & HM). set (w := run (seg 0 n) w0) in *.
  assert (Hil : (i < length ls)%nat) by (apply nth_error_Some; congruence).
  assert (GO : forall k t', nth_error (h_thr (run (seg n k) w)) i = Some t' -> (stage t < stage t')%nat -> exists n' t', (n <= n')%nat /\ nth_error (h_thr (run (seg 0 n') w0)) i = Some t' /\ (stage t < stage t')%nat).
  { intros k t' Ht' Hst. exists (n + k)%nat, t'. split; [lia|]. rewrite seg_add, hexec_app. split; [exact Ht'|exact Hst]. }
  destruct (t_now t) as [[sl ph]|] eqn:En.
  - right. assert (D : (rank (t_now t) = 1 \/ rank (t_now t) = 3)%nat \/ exists k, ph = Asking k) by (rewrite En; destruct ph; cbn; eauto).
    destruct D as [D|(k & ->)].
    + destruct (computing_ends s1 s2 w i me l t HM Hi Ht D) as (T & HT). destruct (seg_many T n) as (a & Ha). destruct (seg_many 1 (n + a)) as (b & Hb).
      destruct (HT (seg n a) (seg (n + a) b) (Ha i Hil) (Hb i Hil)) as (t' & Ht' & Hst). apply (GO (a + b)%nat t'); [rewrite seg_add; exact Ht'|exact Hst].
    + set (top := fold_right Z.max 0 (map snd rqs)).
      assert (HTop : forall s a m, nth_error rqs s = Some (a, m) -> m <= top).
      { intros s a m H. apply nth_error_In in H. unfold top. clear - H. induction rqs as [|[b q] rest IH]; [destruct H|]. cbn [map snd fold_right]. destruct H as [E|H]; [injection E as -> ->; lia|specialize (IH H); lia]. }
      destruct (seg_many 1 n) as (l1 & Hl1). destruct (seg_many 4 (n + l1)) as (l2 & Hl2). destruct (seg_many (Z.to_nat (3 * top + 6)) (n + l1 + l2)) as (l3 & Hl3). destruct (seg_many 1 (n + l1 + l2 + l3)) as (l4 & Hl4).
      destruct (request_ends s1 s2 w i t sl k (seg n l1) (seg (n + l1) l2) (seg (n + l1 + l2) l3) (seg (n + l1 + l2 + l3) l4) HM Ht En) as (t' & Ht' & Hst); try (apply seg_good; lia).
      { intros j Hj. split; [apply Hl1, Hj|]. split; [apply Hl2, Hj|]. split; [apply Hl4, Hj|]. intros s a m Ha. pose proof (HTop s a m Ha). pose proof (Hl3 j Hj). lia. }
      apply (GO (l1 + (l2 + (l3 + l4)))%nat t'); [rewrite (seg_add n), (seg_add (n + l1)), (seg_add (n + l1 + l2)); exact Ht'|exact Hst].
  - destruct (t_left t) as [|x lf] eqn:El; [left; exists t; auto|right]. destruct (seg_many 1 n) as (a & Ha).
    destruct (ready_go (seg n a) s1 s2 w i t HM Ht) as (t' & Ht' & Hst); [unfold ready; rewrite En, El; discriminate|apply Ha, Hil|]. apply (GO a t' Ht' Hst).
Qed.
Lemma finished_run s : forall w i, finished w i -> finished (run s w) i.
Proof.
  induction s as [|[j a] s IH]; intros w i H; [exact H|]. change (run ((j, a) :: s) w) with (run s (hturn C st rqs (j, a) w)). apply IH.
  destruct H as (t & Ht & En & El). exists t. split; [|auto]. unfold hturn. cbn [fst snd]. destruct (nth_error (h_thr w) j) as [tj|] eqn:Ej; [|exact Ht].
  destruct (Nat.eq_dec j i) as [->|Hn].
  - rewrite Ht in Ej. injection Ej as <-. unfold hstep. rewrite En, El. cbn [h_thr]. eapply nth_ht_eq, Ht.
  - destruct (hstep C st rqs a tj (h_mem w) (h_g w) (h_rng w)) as [[[? ?] ?] ?]. cbn [h_thr]. rewrite nth_ht_ne by exact Hn. exact Ht.
Qed.
Lemma thread_finishes i me l : nth_error ls i = Some (me, l) -> exists N, forall n, (N <= n)%nat -> finished (run (seg 0 n) w0) i.
Proof.
  intros Hi. assert (ONE : exists N, finished (run (seg 0 N) w0) i).
  { assert (X : forall K n t, (n0 <= n)%nat -> nth_error (h_thr (run (seg 0 n) w0)) i = Some t -> (4 * length l + 4 <= stage t + K)%nat -> exists N, finished (run (seg 0 N) w0) i).
    { induction K as [|K IH]; intros n t Hn Ht HK.
      - exfalso. destruct (sim_run C mem g ls stk rqs lock fds pos st HS ls Hpre (seg 0 n)) as (s1 & s2 & (_ & _ & Hok & _)). destruct (Hok i (me, l) t Hi Ht) as (_ & done & Ld & _ & Hnow).
        cbn [snd] in Hnow. unfold stage in HK. destruct (t_now t) as [[sl ph]|].
        + destruct Hnow as (a & El & _). rewrite El, app_length in HK. cbn in HK. pose proof (rank_le (Some (sl, ph))). cbn in *. lia.
        + rewrite Hnow, app_length in HK. cbn in HK. lia.
      - destruct (next_stage n i me l t Hn Hi Ht) as [H|(n' & t' & Hn' & Ht' & Hst)]; [exists n; exact H|]. apply (IH n' t'); [lia|exact Ht'|lia]. }
    destruct (nth_error (h_thr (run (seg 0 n0) w0)) i) as [t|] eqn:Et.
    - apply (X (4 * length l + 4)%nat n0 t); [lia|exact Et|lia].
    - exfalso. destruct (sim_run C mem g ls stk rqs lock fds pos st HS ls Hpre (seg 0 n0)) as (s1 & s2 & (_ & L & _)). apply nth_error_None in Et. assert (i < length ls)%nat by (apply nth_error_Some; congruence). lia. }
  destruct ONE as (N & HN). exists N. intros n Hn. replace n with (N + (n - N))%nat by lia. rewrite seg_add, hexec_app. apply finished_run, HN.
Qed.
Lemma all_finish : exists N, forall n i, (N <= n)%nat -> (i < length ls)%nat -> finished (run (seg 0 n) w0) i.
Proof.
  assert (X : forall k, (k <= length ls)%nat -> exists N, forall n i, (N <= n)%nat -> (i < k)%nat -> finished (run (seg 0 n) w0) i).
  { induction k as [|k IH]; intros Hk; [exists O; lia|]. destruct (IH ltac:(lia)) as (N & HN). destruct (nth_error ls k) as [[me l]|] eqn:E; [|apply nth_error_None in E; lia].
    destruct (thread_finishes k me l E) as (M & HM). exists (N + M)%nat. intros n i Hn Hik. destruct (Nat.eq_dec i k) as [->|]; [apply HM; lia|apply HN; lia]. }
  apply (X _ (Nat.le_refl _)).
Qed.
End Live.

(** In every infinite schedule that gives every thread turns again and again, and in which from
    some moment on open() succeeds and read() gives at least one byte, every thread does all its
    actions, and they all return 0. *)
Theorem C45_returns : forall C mem g ls stk rqs lock fds pos st (f : nat -> nat * answer), setting C mem ls stk rqs lock fds st ->
  (forall i n, (i < length ls)%nat -> exists m, (n <= m)%nat /\ fst (f m) = i) ->
  (exists n, forall m, (n <= m)%nat -> succeeds (snd (f m))) ->
  exists N, forall n i me l, (N <= n)%nat -> nth_error ls i = Some (me, l) ->
    exists t, nth_error (h_thr (hexec C st rqs (map f (seq 0 n)) (hstart mem g ls stk rqs lock fds pos))) i = Some t /\
      t_now t = None /\ t_codes t = repeat 0 (length l).
Proof.
  intros C mem g ls stk rqs lock fds pos st f HS HF (n0 & HG). destruct (all_finish C mem g ls stk rqs lock fds pos st HS f HF n0 HG) as (N & HN).
  exists N. intros n i me l Hn Hi. destruct (HN n i Hn ltac:(apply nth_error_Some; congruence)) as (t & Ht & En & El). unfold seg in Ht. exists t. split; [exact Ht|]. split; [exact En|].
  assert (Hpre : forall i me l, nth_error ls i = Some (me, l) -> exists rest, nth_error ls i = Some (me, l ++ rest)) by (intros i' me' l' H; exists []; rewrite app_nil_r; exact H).
  destruct (C45_threads C mem g ls stk rqs lock fds pos st (map f (seq 0 n)) HS) as (_ & _ & _ & _ & Hc & _). rewrite (Hc i t Ht).
  destruct (sim_run C mem g ls stk rqs lock fds pos st HS ls Hpre (map f (seq 0 n))) as (s1 & s2 & (_ & _ & Hok & _)). destruct (Hok i (me, l) t Hi Ht) as (_ & done & Ld & _ & Hnow).
  rewrite En, El, app_nil_r in Hnow. cbn [snd] in Hnow. rewrite Hnow, Ld. reflexivity.
Qed.
Print Assumptions C45_returns.

(** ** The hypotheses are met *)
Lemma effect_of_stream P g r a mem : 0 <= pCB P -> 0 <= bytesMu P -> bytestr (takes P a) r -> effect_of P g r a mem = effect P g (znth r) a 0 mem.
Proof.
  intros H1 H2 (L & _).
  assert (E : forall p n, 0 <= p -> 0 <= n -> p + n <= zlen r -> zslice r p n = segment (znth r) p n).
  { intros p n Hp Hn Hl. apply list_ext; [rewrite zlen_zslice by lia; unfold segment; rewrite zlen_ztab by lia; reflexivity|]. rewrite zlen_zslice by lia. intros k Hk. unfold segment. rewrite znth_zslice, znth_ztab by lia. reflexivity. }
  destruct a as [pk sk|ct ss pk|ss ct sk|b x]; cbn [effect_of effect takes] in *.
  - rewrite !E by lia. reflexivity.
  - rewrite <- E by lia. rewrite zslice_all_n by exact L. reflexivity.
  - reflexivity.
  - reflexivity.
Qed.
(** In a memory without uninitialised bytes only the addresses matter. *)
Theorem C45_placed : forall C R l mem, valid (cP C) -> bytes_ok mem -> sized (cP C) R l -> Forall (fun sa => placed (cP C) (zlen mem) (snd sa)) l ->
  in_order (cP C) (cGen C) R l mem.
Proof.
  intros C R l mem V Bm Hs Hl. revert mem Bm Hl. induction l as [|[s a] l IH]; intros mem Bm Hl; [exact I|]. inversion Hl as [|? ? Ha Hl']; subst. cbn [snd] in Ha.
  assert (Hr : bytestr (takes (cP C) a) (R s)) by (apply Hs; left; reflexivity).
  destruct (sizes C V) as (HN & HD & HB & HCB & ENN & EbB & HDN & EbC & EbMu & EP & ES & EC & Esp & EH).
  assert (St : forall i, 0 <= znth (R s) i < 256) by (intros i; apply inrange_znth_all; [lia|apply Hr]).
  pose proof (C43_placed C (znth (R s)) [a] 0 mem V St Bm ltac:(constructor; [exact Ha|constructor])) as (Hf & _).
  cbn [in_order]. split; [exact Hf|]. rewrite effect_of_stream by (try exact Hr; lia).
  destruct (effect_frame C (znth (R s)) a 0 mem V Hf) as (L & _). apply IH; [intros s' a' Hin; apply Hs; right; exact Hin| |rewrite L; exact Hl'].
  apply effect_bytes; assumption.
Qed.
Print Assumptions C45_placed.
(** FrodoKEM-976: a thread that makes a key pair, encapsulates to it and decapsulates; another that
    makes a key pair, overwrites a byte of its secret key and decapsulates twice. *)
Definition ls976 : list (Z * list (nat * action)) :=
  [(1, [(0%nat, AKeyPair 0 16000); (1%nat, AEnc 48000 64000 0); (2%nat, ADec 64100 48000 16000)]);
   (2, [(3%nat, AKeyPair 100000 116000); (4%nat, AStore 116500 [7]); (5%nat, ADec 190000 150000 116000); (6%nat, ADec 190100 151000 116000)])].
Definition rqs976 : list (Z * Z) := [(0, 64); (100, 24); (0, 0); (200, 64); (0, 0); (0, 0); (0, 0)].
Example C45_hyps : setting C976 mem3 ls976 (zrep 300 0) rqs976 (-1) [] (fun p => (p * p + 7) mod 256).
Proof.
  destruct C33_hyps as (_ & _ & H3 & H4 & H5).
  assert (L : zlen mem3 = 200000) by (apply zlen_ztab; lia).
  assert (Bm : bytes_ok mem3) by (apply inrange_ztab; intros; apply mod256).
  assert (Epk : pkBytes (cP C976) = 15632) by reflexivity. assert (Esk : skBytes (cP C976) = 31296) by reflexivity.
  assert (Ect : ctBytes (cP C976) = 15744) by reflexivity. assert (ECB : pCB (cP C976) = 24) by reflexivity. assert (Emu : bytesMu (cP C976) = 24) by reflexivity.
  revert L Bm. generalize mem3. intros M L Bm.
  split; [exact H3|]. split; [exact H4|]. split; [exact H5|]. split; [|split; [|split; [|split; [|split; [|split]]]]].
  - intros [|[|i]] me l R E HR; cbn in E; try (destruct i; discriminate); injection E as <- <-; apply C45_placed; try assumption; rewrite L;
      repeat (apply Forall_cons || apply Forall_nil); unfold placed, disjoint; cbv zeta; cbn [snd]; rewrite ?Epk, ?Esk, ?Ect, ?ECB;
      repeat match goal with |- _ /\ _ => split | |- bytes_ok _ => repeat (apply Forall_cons || apply Forall_nil) | |- _ mod _ = _ => reflexivity end; try lia; cbn; lia.
  - intros i j me me' l l' x Hij Hi Hj (s & a & Hin & (o & n & Ho & Hx)) (s' & a' & Hin' & (o' & n' & Ho' & Hx')).
    destruct i as [|[|i]]; cbn in Hi; try (destruct i; discriminate); injection Hi as <- <-; destruct j as [|[|j]]; cbn in Hj; try (destruct j; discriminate); try congruence; injection Hj as <- <-;
      cbn [In] in Hin, Hin'; repeat destruct Hin as [Hin|Hin]; try contradiction; injection Hin as <- <-; cbn [written In] in Ho; rewrite ?Epk, ?Esk, ?Ect, ?ECB in Ho;
      repeat destruct Ho as [Ho|Ho]; try contradiction; injection Ho as <- <-;
      repeat destruct Hin' as [Hin'|Hin']; try contradiction; injection Hin' as <- <-; cbn [used written app In] in Ho'; rewrite ?Epk, ?Esk, ?Ect, ?ECB in Ho';
      repeat destruct Ho' as [Ho'|Ho']; try contradiction; injection Ho' as <- <-; try change (zlen [7]) with 1 in *; lia.
  - intros [|[|i]] me l s a E Hin; cbn in E; try (destruct i; discriminate); injection E as <- <-; cbn [In] in Hin; repeat destruct Hin as [Hin|Hin]; try contradiction; injection Hin as <- <-; eexists; reflexivity.
  - cbn. repeat (constructor; [cbn; lia|]). constructor.
  - assert (LS : zlen (zrep 300 0) = 300) by (apply zlen_zrep; lia). split.
    + intros i a n E. apply nth_error_In in E. cbn [In rqs976] in E. repeat destruct E as [E|E]; try contradiction; injection E as <- <-; (split; [lia|]); split; rewrite ?LS; lia.
    + intros i j a n b m Hij E F. unfold disjoint.
      do 7 (destruct i as [|i]; [do 7 (destruct j as [|j]; [cbn in E, F; try congruence; injection E as <- <-; injection F as <- <-; lia|]); destruct j; discriminate|]). destruct i; discriminate.
  - split; [left; reflexivity|intros []].
  - intros p. apply mod256.
Qed.
Example C45_fair :
  let f (n : nat) := ((n mod 2)%nat, {| an_open := if (n <? 100)%nat then None else Some 3%nat; an_read := if (n <? 100)%nat then RErr else RGive 5 |}) in
  (forall i n, (i < length ls976)%nat -> exists m, (n <= m)%nat /\ fst (f m) = i) /\
  (exists n, forall m, (n <= m)%nat -> succeeds (snd (f m))).
Proof.
  split.
  - intros i n Hi. cbn [length ls976] in Hi. exists (2 * n + i)%nat. split; [lia|]. cbn [fst]. rewrite Nat.add_comm, Nat.mul_comm, Nat.mod_add by lia. apply Nat.mod_small. exact Hi.
  - exists 100%nat. intros m Hm. cbn [snd]. assert (E : (m <? 100)%nat = false) by (apply Nat.ltb_ge; exact Hm). rewrite E.
    split; [discriminate|]. exists 5. split; [reflexivity|lia].
Qed.
