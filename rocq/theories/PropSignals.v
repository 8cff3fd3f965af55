(** C56: calls made from signal handlers that interrupt other calls (Unix). *)
From Verif Require Import CSem ZList Params FrodoSpec Macrify Kem KemWp FrodoFacts PropKem Conc ConcProofs PropConc ConcKem ConcKemProofs PropConcKem
  Random ConcRandom ConcRandomProofs PropConcRandom ConcLib ConcLibProofs PropConcLib Signals SignalsProofs.

(** No call has been made yet. *)
Definition sbegin (C : config) (mem : list Z) (g : Z) (cs : list (Z * acall)) (stk : list Z) (rqs : list (Z * Z)) (lock : Z) (fds : list Z) (pos : Z) : sworld :=
  mks (begin C mem g cs stk rqs lock fds pos) [] 0.

(** ** Safety *)
Lemma handlers_schedule st rqs evs : forall w, exists sched, s_lib (srun st rqs evs w) = xexec st rqs sched (s_lib w).
Proof.
  induction evs as [|e evs IH]; intros w; [exists []; reflexivity|]. destruct (IH (sstep st rqs w e)) as (s & E). cbn [srun fold_left]. unfold srun in E. rewrite E.
  destruct e as [a|]; cbn [sstep].
  - destruct (s_open w) as [|i l]; [exists s; reflexivity|]. exists ((i, a) :: s). reflexivity.
  - exists s. destruct (_ <? _)%nat; reflexivity.
Qed.
Lemma result_turn st rqs ia x i r : result x i = Some r -> result (xturn st rqs ia x) i = Some r.
Proof.
  unfold result. destruct (nth_error (x_thr x) i) as [[| |p]|] eqn:E; try discriminate. intros Hr.
  unfold xturn. destruct (Nat.eq_dec (fst ia) i) as [->|Hn].
  - rewrite E. destruct p; try discriminate; cbn [step x_thr]; rewrite (nth_ph_eq _ _ _ _ E); exact Hr.
  - destruct (nth_error (x_thr x) (fst ia)) as [[q k0|k0|q]|]; [| | |rewrite E; exact Hr].
    + destruct q; try (destruct (step _ _ _) as [[? ?] ?]); cbn [x_thr]; rewrite (nth_ph_ne _ _ _ _ Hn), E; exact Hr.
    + destruct (nth_error (rw_calls (x_rng x)) (fst ia)) as [c|]; [|rewrite E; exact Hr]. destruct (nth_error rqs (fst ia)) as [[b n]|]; [|rewrite E; exact Hr].
      destruct (rc_pc c); cbn [x_thr]; rewrite ?(nth_ph_ne _ _ _ _ Hn), E; exact Hr.
    + destruct (step _ _ _) as [[? ?] ?]. cbn [x_thr]. rewrite (nth_ph_ne _ _ _ _ Hn), E; exact Hr.
Qed.

Definition is_comes (e : event) : bool := match e with Comes => true | Goes _ => false end.
(** How many calls are made in these events, if there are that many. *)
Definition comes (evs : list event) : nat := length (filter is_comes evs).
Lemma length_turn st rqs ia x : length (x_thr (xturn st rqs ia x)) = length (x_thr x).
Proof.
  unfold xturn. destruct (nth_error (x_thr x) (fst ia)) as [[q k0|k0|q]|]; [| | |reflexivity].
  - destruct q; try (destruct (step _ _ _) as [[? ?] ?]); cbn [x_thr]; apply length_ph.
  - destruct (nth_error (rw_calls (x_rng x)) (fst ia)) as [c|]; [|reflexivity]. destruct (nth_error rqs (fst ia)) as [[b m]|]; [|reflexivity].
    destruct (rc_pc c); cbn [x_thr]; rewrite ?length_ph; reflexivity.
  - destruct (step _ _ _) as [[? ?] ?]. cbn [x_thr]. apply length_ph.
Qed.
Lemma made st rqs L evs : forall w, length (x_thr (s_lib w)) = L -> (s_next w <= L)%nat -> (forall i, (i < s_next w)%nat -> In i (s_open w) \/ result (s_lib w) i <> None) ->
  let w' := srun st rqs evs w in
  length (x_thr (s_lib w')) = L /\ s_next w' = Nat.min L (s_next w + comes evs) /\ forall i, (i < s_next w')%nat -> In i (s_open w') \/ result (s_lib w') i <> None.
Proof.
  induction evs as [|e evs IH]; intros w EL Hn H; [cbn; split; [exact EL|]; split; [lia|exact H]|]. cbn [srun fold_left]. cbv zeta in IH. unfold srun in IH.
  destruct e as [a|]; unfold comes; cbn [filter is_comes length]; fold (comes evs); cbn [sstep].
  - destruct (s_open w) as [|j l] eqn:Eo; [apply (IH w EL Hn); rewrite Eo; exact H|].
    apply (IH (mks (xturn st rqs (j, a) (s_lib w)) _ (s_next w))); cbn [s_lib s_next s_open]; [rewrite length_turn; exact EL|exact Hn|].
    intros i Hi. assert (K : result (s_lib w) i <> None -> result (xturn st rqs (j, a) (s_lib w)) i <> None).
    { destruct (result (s_lib w) i) as [r|] eqn:Er; [|congruence]. intros _. rewrite (result_turn st rqs (j, a) _ i r Er). discriminate. }
    destruct (H i Hi) as [[->|Hin]|Hr]; [|left; destruct (result _ j); [exact Hin|right; exact Hin]|right; apply K, Hr].
    destruct (result (xturn st rqs (i, a) (s_lib w)) i) eqn:Er; [right; discriminate|left; left; reflexivity].
  - destruct (Nat.ltb_spec (s_next w) (length (x_thr (s_lib w)))) as [Hl|Hl].
    + destruct (IH (mks (s_lib w) (s_next w :: s_open w) (Datatypes.S (s_next w)))) as (A & B & D); cbn [s_lib s_next s_open] in *; [exact EL|lia| |split; [exact A|split; [rewrite B; lia|exact D]]].
      intros i Hi. destruct (Nat.eq_dec i (s_next w)) as [->|]; [left; left; reflexivity|]. destruct (H i ltac:(lia)); [left; right; assumption|right; assumption].
    + destruct (IH w EL Hn H) as (A & B & D). split; [exact A|]. split; [rewrite B; lia|exact D].
Qed.

(** Calls that interrupt each other at any moments, to any depth, with every behaviour of the
    operating system.  Of the calls made, those not in progress have returned; they have
    returned 0, and their outputs are those FrodoKEM gives for bytes of the device's stream at
    increasing positions.  No byte of the stream is used twice.  Bytes that are nobody's output
    do not change. *)
Theorem C56_handlers : forall C mem g cs stk rqs lock fds pos st evs, setting C mem cs stk rqs lock fds st ->
  let w := srun st rqs evs (sbegin C mem g cs stk rqs lock fds pos) in
  s_next w = Nat.min (length cs) (comes evs) /\
  (forall i, (i < s_next w)%nat -> In i (s_open w) \/ result (s_lib w) i = Some (ret 0)) /\
  zlen (x_mem (s_lib w)) = zlen mem /\
  (forall a, (forall i me c, nth_error cs i = Some (me, c) -> ~ within (writes C (call_with [] c)) a) -> znth (x_mem (s_lib w)) a = znth mem a) /\
  exists src : nat -> Z -> Z,
    (forall i me c r, nth_error cs i = Some (me, c) -> result (s_lib w) i = Some r -> r = ret 0 /\
       (forall k, 0 <= k < need C c -> pos <= src i k) /\
       (forall k l, 0 <= k < l -> l < need C c -> src i k < src i l) /\
       forall a x, In (a, x) (outputs C mem c (ztab (need C c) (fun k => st (src i k)))) -> holds (x_mem (s_lib w)) a (zlen x) x) /\
    (forall i j me me' c d r s, i <> j -> nth_error cs i = Some (me, c) -> nth_error cs j = Some (me', d) ->
       result (s_lib w) i = Some r -> result (s_lib w) j = Some s ->
       forall k l, 0 <= k < need C c -> 0 <= l < need C d -> src i k <> src j l).
Proof.
  intros C mem g cs stk rqs lock fds pos st evs HS w.
  pose proof (made st rqs (length cs) evs (sbegin C mem g cs stk rqs lock fds pos)) as HW. cbv zeta in HW. fold w in HW.
  destruct HW as (_ & Hnx & Hret); [cbn; apply map_length|cbn; lia|cbn; lia|]. cbn [s_next sbegin Nat.add] in Hnx.
  destruct (handlers_schedule st rqs evs (sbegin C mem g cs stk rqs lock fds pos)) as (sched & Es). fold w in Es. cbn [s_lib sbegin] in Es.
  destruct (C41_threads C mem g cs stk rqs lock fds pos st sched HS) as (A1 & A2 & src & A3 & A4). rewrite <- Es in A1, A2, A3, A4.
  split; [exact Hnx|]. split; [|split; [exact A1|split; [exact A2|exists src; split; assumption]]].
  intros i Hi. destruct (Hret i Hi) as [H|H]; [left; exact H|right]. destruct (result (s_lib w) i) as [r|] eqn:Er; [|congruence].
  destruct (nth_error cs i) as [[me c]|] eqn:Ec; [|apply nth_error_None in Ec; lia]. destruct (A3 i me c r Ec Er) as (-> & _). reflexivity.
Qed.
Print Assumptions C56_handlers.

(** ** Progress *)
Section Live.
Variables (C : config) (mem : list Z) (g : Z) (cs : list (Z * acall)) (stk : list Z) (rqs : list (Z * Z)) (lock : Z) (fds : list Z) (pos : Z) (st : Z -> Z).
Hypothesis HS : setting C mem cs stk rqs lock fds st.
Let HRq := set_req C mem cs stk rqs lock fds st HS.
Let HDs := set_dis C mem cs stk rqs lock fds st HS.
Let HLn := set_len C mem cs stk rqs lock fds st HS.
Let HIn := set_inv C mem cs stk rqs lock fds pos st HS.
Notation simm := (sim C st mem g cs rqs (start stk lock fds pos rqs)).
Let turn_sim := sim_turn C st mem g cs stk pos rqs (start stk lock fds pos rqs) HRq HDs HLn HIn.
Let simm_rinv := sim_rinv C st mem g cs stk pos rqs (start stk lock fds pos rqs) HRq HDs HIn.

(** Running alone, with system calls that succeed, call i comes to its end. *)
Inductive fin (i : nat) : xworld -> Prop :=
| fin_done x : result x i <> None -> fin i x
| fin_step x : (forall a, good_answer a -> fin i (xturn st rqs (i, a) x)) -> fin i x.

Lemma fin_after s1 s2 x i p : simm s1 s2 x -> nth_error (x_thr x) i = Some (After p) -> fin i x.
Proof.
  intros HM Hp. assert (HF : fits C cs (chosen C cs rqs x)) by (intros j me c Hi; exact (chosen_ok C mem g cs stk rqs lock fds pos st HS s1 s2 x j me c HM Hi)).
  destruct (calls_fit C mem cs stk rqs lock fds st HS _ HF) as (HP & HAp). destruct (programs_map C (chosen C cs rqs x) cs) as (_ & N).
  pose proof HS as (V & Hb & Hre & _). destruct (C33_threads C mem g _ V Hb Hre HP HAp) as (T & HTT).
  assert (AG := agrees_chosen C cs rqs x). revert N HTT AG. generalize (chosen C cs rqs x). intros R N HTT AG. clear HF HP HAp.
  assert (Hi : (i < length cs)%nat) by (destruct HM as (_ & L & _); rewrite <- L; apply nth_error_Some; congruence).
  destruct (nth_error cs i) as [[me c]|] eqn:Hmc; [|apply nth_error_None in Hmc; lia].
  assert (G : forall d s1 s2 x p, simm s1 s2 x -> agrees cs rqs x R -> nth_error (x_thr x) i = Some (After p) -> (T <= d + count_occ Nat.eq_dec s1 i)%nat -> fin i x).
  2:{ apply (G T s1 s2 x p HM AG Hp). lia. }
  clear s1 s2 x p HM Hp AG. induction d as [|d IH]; intros s1 s2 x p HM AG Hp Hd.
  - apply fin_done. unfold result. rewrite Hp.
    destruct (kem_run C mem g cs stk rqs lock fds pos st _ _ _ x HM AG) as (thr & E & Hrel).
    specialize (HTT s1). cbv zeta in HTT. rewrite E in HTT. cbn [w_mem w_thr] in HTT. destruct HTT as (_ & _ & Th).
    destruct (Th i me (call_with (R i) c)) as (q & Hq & Hend & _); [rewrite N, Hmc; reflexivity|].
    pose proof (Hrel i _ q Hp Hq) as Ep. cbn in Ep. subst q. rewrite Hend by lia. discriminate.
  - apply fin_step. intros a _. destruct (turn_sim s1 s2 x (i, a) HM) as (s1' & s2' & HM' & Hc & Ho). cbn [fst] in Hc, Ho. rewrite Hp in Hc.
    destruct Hc as (-> & -> & p' & Hp'). apply (IH _ _ _ p' HM'); [|exact Hp'|rewrite count_occ_app; cbn [count_occ]; destruct (Nat.eq_dec i i); [lia|congruence]].
    assert (RNG : x_rng (xturn st rqs (i, a) x) = x_rng x) by (unfold xturn; cbn [fst]; rewrite Hp; destruct (step _ _ _) as [[? ?] ?]; reflexivity).
    intros j mc q Hj Ha Hq. unfold buffer. rewrite RNG. destruct (Nat.eq_dec j i) as [->|Hn].
    + apply (AG i mc p Hj Ha Hp).
    + rewrite (Ho j Hn) in Hq. apply (AG j mc q Hj Ha Hq).
Qed.
Lemma fin_asking s1 s2 x i l k : simm s1 s2 x -> NoDup (i :: l) -> nest (x_rng x) (i :: l) -> nth_error (x_thr x) i = Some (Asking k) -> fin i x.
Proof.
  intros HM ND HN Hk. destruct (nth_error (rw_calls (x_rng x)) i) as [c|] eqn:Hc.
  2:{ pose proof (simm_rinv _ _ _ HM) as (L & _). apply nth_error_None in Hc. assert (i < length cs)%nat by (destruct HM as (_ & L' & _); rewrite <- L'; apply nth_error_Some; congruence). lia. }
  remember (Z.to_nat (left_ (x_rng x) c)) as d eqn:Ed. revert s1 s2 x c HM HN Hk Hc Ed. induction d as [d IH] using (well_founded_induction Wf_nat.lt_wf).
  intros s1 s2 x c HM HN Hk Hc Ed. apply fin_step. intros a Ga. destruct (turn_sim s1 s2 x (i, a) HM) as (s1' & s2' & HM' & Hcs & Ho). cbn [fst] in Hcs, Ho. rewrite Hk in Hcs.
  destruct Hcs as [(_ & _ & Et)|(_ & _ & p & Hp)]; [|apply (fin_after s1' s2' _ i p HM' Hp)].
  pose proof (simm_rinv _ _ _ HM) as HI. pose proof HI as (L & _ & _ & HC & _). destruct (calls_nth rqs _ i c L Hc) as (b & n & Hb). pose proof (HC i b n c Hb Hc) as OK.
  assert (NR : forall v, rc_pc c <> PRet v).
  { intros v Ep. unfold xturn in Et. cbn [fst] in Et. rewrite Hk, Hc, Hb, Ep in Et. cbn [x_thr] in Et. apply (f_equal (fun l => nth_error l i)) in Et. rewrite (nth_ph_eq _ _ _ _ Hk), Hk in Et. discriminate. }
  assert (RNG : x_rng (xturn st rqs (i, a) x) = rturn st (i, a) (x_rng x)).
  { unfold xturn. cbn [fst]. rewrite Hk, Hc, Hb. destruct OK as (_ & _ & _ & _ & Hpc). unfold pc_ok in Hpc. destruct (rc_pc c) eqn:Ep; try reflexivity; [destruct (NR v eq_refl)|contradiction]. }
  destruct (left_turn st stk pos rqs HRq (x_rng x) i l a c Ga HI HN Hc NR) as (c' & Hc' & Hlt). rewrite <- RNG in Hc', Hlt.
  pose proof (left_nonneg (x_rng x) c b n OK). 
  apply (IH (Z.to_nat (left_ (x_rng (xturn st rqs (i, a) x)) c'))) with (s1 := s1') (s2 := s2') (c := c'); try assumption; [|rewrite RNG; apply (nest_turn st stk pos rqs HRq HDs); assumption|rewrite Et; exact Hk|reflexivity].
  pose proof (simm_rinv _ _ _ HM') as (L' & _ & _ & HC' & _). destruct (calls_nth rqs _ i c' L' Hc') as (b' & n' & Hb'). pose proof (left_nonneg (x_rng (xturn st rqs (i, a) x)) c' b' n' (HC' i b' n' c' Hb' Hc')). lia.
Qed.
Lemma fin_before m : forall s1 s2 x i l p k, simm s1 s2 x -> NoDup (i :: l) -> nest (x_rng x) (i :: l) -> nth_error (x_thr x) i = Some (Before p k) -> short m p -> fin i x.
Proof.
  induction m as [|m IH]; intros s1 s2 x i l p k HM ND HN Hp Hsh; apply fin_step; intros a _;
    destruct (turn_sim s1 s2 x (i, a) HM) as (s1' & s2' & HM' & Hc & Ho); cbn [fst] in Hc, Ho; rewrite Hp in Hc;
    (assert (HN' : nest (x_rng (xturn st rqs (i, a) x)) (i :: l)) by (destruct (xturn_rng st rqs (i, a) x) as [->| ->]; [exact HN|apply (nest_turn st stk pos rqs HRq HDs); try assumption; apply (simm_rinv _ _ _ HM)]));
    inversion Hsh as [? y E1 E2|? e E1 E2|m' ad kk Hk E1 E2]; subst.
  - destruct Hc as (_ & _ & Hc). eapply fin_asking; eassumption.
  - destruct (no_fault C mem g cs stk rqs lock fds pos st HS s1 s2 x i k e HM Hp).
  - destruct Hc as (_ & _ & Hc). eapply fin_asking; eassumption.
  - destruct (no_fault C mem g cs stk rqs lock fds pos st HS s1 s2 x i k e HM Hp).
  - destruct Hc as (_ & _ & Hc). eapply (IH s1' s2' _ i l); [exact HM'|exact ND|exact HN'|exact Hc|].
    cbn [step]. destruct (in_mem (x_mem x) ad); cbn [fst]; [apply Hk|constructor].
Qed.

(** What is true at every moment. *)
Definition nested (w : sworld) : Prop :=
  (exists s1 s2, simm s1 s2 (s_lib w)) /\ (s_next w <= length cs)%nat /\ NoDup (s_open w) /\ (forall i, In i (s_open w) -> (i < s_next w)%nat) /\
  nest (x_rng (s_lib w)) (s_open w) /\
  (forall i, (s_next w <= i)%nat -> nth_error (x_thr (s_lib w)) i = option_map (start_thread C) (nth_error cs i)) /\
  (forall i p k, nth_error (x_thr (s_lib w)) i = Some (Before p k) -> exists m, short m p) /\
  (forall i, (i < s_next w)%nat -> In i (s_open w) \/ result (s_lib w) i = Some (ret 0)).
Lemma started_short mc p k : start_thread C mc = Before p k -> exists m, short m p.
Proof. destruct mc as [me [pk sk|ct ss pk|ss ct sk]]; cbn; intros E; try discriminate; injection E as <- _; eexists; [apply (short_ret 0)|apply short_load]. Qed.
Lemma nest_tail r i l : nest r (i :: l) -> nest r l.
Proof.
  intros (A & B). split.
  - intros pre j post c E Hc Hp. destruct (A (i :: pre) j post c) as (X & Y); [rewrite E; reflexivity|exact Hc|exact Hp|]. split; [exact X|]. intros x d Hx. apply Y. right; exact Hx.
  - intros j c fd Hj. apply B. right; exact Hj.
Qed.
Lemma ended_zero s1 s2 x i r : simm s1 s2 x -> result x i = Some r -> r = ret 0.
Proof.
  intros HM Hr. assert (HF : fits C cs (chosen C cs rqs x)) by (intros j me c Hi; exact (chosen_ok C mem g cs stk rqs lock fds pos st HS s1 s2 x j me c HM Hi)).
  destruct (kem_run C mem g cs stk rqs lock fds pos st (chosen C cs rqs x) s1 s2 x HM (agrees_chosen C cs rqs x)) as (thr & E & Hrel).
  destruct (calls_fit C mem cs stk rqs lock fds st HS _ HF) as (HP & HA). destruct (programs_map C (chosen C cs rqs x) cs) as (_ & N).
  pose proof HS as (V & Hb & Hre & _). destruct (C33_threads C mem g _ V Hb Hre HP HA) as (T & HT). specialize (HT s1). cbv zeta in HT. rewrite E in HT. cbn [w_mem w_thr] in HT. destruct HT as (_ & _ & Th).
  unfold result in Hr. destruct (nth_error (x_thr x) i) as [[| |p]|] eqn:Hp; try discriminate.
  assert (Hi : (i < length cs)%nat) by (destruct HM as (_ & L & _); rewrite <- L; apply nth_error_Some; congruence).
  destruct (nth_error cs i) as [[me c]|] eqn:Hmc; [|apply nth_error_None in Hmc; lia].
  destruct (Th i me (call_with (chosen C cs rqs x i) c)) as (q & Hq & _ & Hres); [rewrite N, Hmc; reflexivity|].
  pose proof (Hrel i _ q Hp Hq) as Ep. cbn in Ep. subst q. apply (Hres r Hr).
Qed.
Lemma nested_start : nested (sbegin C mem g cs stk rqs lock fds pos).
Proof.
  split; [exists [], []; apply sim_start; [exact HLn|reflexivity]|]. cbn [s_next s_open s_lib sbegin]. split; [lia|]. split; [constructor|]. split; [intros i []|].
  split; [split; [intros pre i post c E; destruct pre; discriminate|intros i c fd []]|]. split; [intros i _; cbn; apply nth_error_map|]. split; [|lia].
  intros i p k. cbn [begin x_thr]. rewrite nth_error_map. destruct (nth_error cs i) as [mc|]; [|discriminate]. cbn. intros E. injection E as E. apply (started_short mc p k E).
Qed.
Lemma nested_step w e : nested w -> nested (sstep st rqs w e).
Proof.
  intros ((s1 & s2 & HM) & Hnx & ND & Hlt & HN & Hst & Hsh & Hdn). destruct e as [a|]; cbn [sstep].
  - destruct (s_open w) as [|i l] eqn:Eo; [split; [eauto|rewrite Eo; auto 10]|].
    destruct (turn_sim s1 s2 (s_lib w) (i, a) HM) as (s1' & s2' & HM' & Hc & Ho). cbn [fst] in Hc, Ho.
    assert (Hi : (i < s_next w)%nat) by (apply Hlt; left; reflexivity).
    assert (HN' : nest (x_rng (xturn st rqs (i, a) (s_lib w))) (i :: l)) by (destruct (xturn_rng st rqs (i, a) (s_lib w)) as [->| ->]; [exact HN|apply (nest_turn st stk pos rqs HRq HDs); try assumption; apply (simm_rinv _ _ _ HM)]).
    set (x := xturn st rqs (i, a) (s_lib w)) in *. unfold nested. cbn [s_lib s_open s_next]. split; [eauto|]. split; [exact Hnx|].
    split; [destruct (result x i); [apply NoDup_cons_iff in ND; apply ND|exact ND]|].
    split; [destruct (result x i); intros j Hj; apply Hlt; [right|]; exact Hj|].
    split; [destruct (result x i); [apply (nest_tail _ i); exact HN'|exact HN']|].
    split; [intros j Hj; rewrite Ho by lia; apply Hst, Hj|].
    split.
    + intros j p k Hp. destruct (Nat.eq_dec j i) as [->|Hn]; [|rewrite (Ho j Hn) in Hp; apply (Hsh j p k Hp)].
      destruct (nth_error (x_thr (s_lib w)) i) as [[q kk|kk|q]|] eqn:Eq.
      * destruct (Hsh i q kk Eq) as (m & Hm). destruct Hm as [m y|m e|m ad k2 Hk2].
        -- destruct Hc as (_ & _ & Hc). congruence.
        -- destruct (no_fault C mem g cs stk rqs lock fds pos st HS s1 s2 (s_lib w) i kk e HM Eq).
        -- destruct Hc as (_ & _ & Hc). rewrite Hp in Hc. injection Hc as -> _. exists m. cbn [step]. destruct (in_mem _ ad); cbn [fst]; [apply Hk2|constructor].
      * destruct Hc as [(_ & _ & Et)|(_ & _ & q & Hq)]; [rewrite Et, Eq in Hp|rewrite Hq in Hp]; discriminate.
      * destruct Hc as (_ & _ & q' & Hq). congruence.
      * destruct HM as (_ & L1 & _). destruct HM' as (_ & L2 & _). apply nth_error_None in Eq. assert (nth_error (x_thr x) i <> None) by congruence. apply nth_error_Some in H. lia.
    + intros j Hj. destruct (Nat.eq_dec j i) as [->|Hn].
      * destruct (result x i) as [r|] eqn:Er; [right; f_equal; apply (ended_zero s1' s2' x i r HM' Er)|left; left; reflexivity].
      * destruct (Hdn j Hj) as [[E|Hin]|Hr]; [congruence|left; destruct (result x i); [exact Hin|right; exact Hin]|right; apply result_turn; exact Hr].
  - destruct (Nat.ltb_spec (s_next w) (length (x_thr (s_lib w)))) as [Hl|Hl]; [|split; eauto 10].
    unfold nested. cbn [s_lib s_open s_next]. pose proof HM as (_ & LT & PH & _). split; [eauto|]. split; [lia|].
    split; [constructor; [intros Hin; apply Hlt in Hin; lia|exact ND]|].
    split; [intros i [<-|Hin]; [lia|apply Hlt in Hin; lia]|].
    split; [|split; [intros i Hi; apply Hst; lia|split; [exact Hsh|]]].
    + destruct (nth_error cs (s_next w)) as [mc|] eqn:Emc; [|apply nth_error_None in Emc; lia]. pose proof (Hst (s_next w) (Nat.le_refl _)) as Et. rewrite Emc in Et. cbn [option_map] in Et.
      destruct (PH (s_next w) mc Emc) as (ph & c & rq & Q1 & Q2 & Q3 & Q4). rewrite Et in Q1. injection Q1 as <-.
      assert (Ep : rc_pc c = PTest).
      { destruct mc as [me [pk sk|ct ss pk|ss ct sk]]; cbn in Q4; [destruct Q4 as (_ & ->)|destruct Q4 as (_ & ->)|subst c]; reflexivity. }
      destruct HN as (N1 & N2). split.
      * intros pre i post d El Hd Hp. destruct pre as [|y pre]; cbn [app] in El; injection El as <- El.
        -- rewrite Q2 in Hd. injection Hd as <-. rewrite Ep in Hp. contradiction.
        -- destruct (N1 pre i post d El Hd Hp) as (X & Y). split; [exact X|]. intros j e [<-|Hj] He; [rewrite Q2 in He; injection He as <-; left; exact Ep|apply (Y j e Hj He)].
      * intros i d fd [<-|Hin] Hd Ed; [rewrite Q2 in Hd; injection Hd as <-; rewrite Ep in Ed; discriminate|apply (N2 i d fd Hin Hd Ed)].
    + intros i Hi. destruct (Nat.eq_dec i (s_next w)) as [->|Hn]; [left; left; reflexivity|]. destruct (Hdn i ltac:(lia)); [left; right; assumption|right; assumption].
Qed.
Lemma fin_top w i l : nested w -> s_open w = i :: l -> fin i (s_lib w).
Proof.
  intros ((s1 & s2 & HM) & Hnx & ND & Hlt & HN & _ & Hsh & _) Eo. rewrite Eo in *. assert (Hi : (i < length cs)%nat) by (specialize (Hlt i (or_introl eq_refl)); lia).
  destruct (nth_error (x_thr (s_lib w)) i) as [[p k|k|p]|] eqn:Ep.
  - destruct (Hsh i p k Ep) as (m & Hm). apply (fin_before m s1 s2 _ i l p k HM ND HN Ep Hm).
  - apply (fin_asking s1 s2 _ i l k HM ND HN Ep).
  - apply (fin_after s1 s2 _ i p HM Ep).
  - apply nth_error_None in Ep. destruct HM as (_ & L & _). lia.
Qed.

Variable f : nat -> event.
Notation at_ n := (srun st rqs (map f (seq 0 n)) (sbegin C mem g cs stk rqs lock fds pos)).
Lemma at_S n : at_ (Datatypes.S n) = sstep st rqs (at_ n) (f n).
Proof. unfold srun. rewrite seq_S, map_app, fold_left_app. reflexivity. Qed.
Lemma at_nested n : nested (at_ n).
Proof. induction n as [|n IH]; [exact nested_start|]. rewrite at_S. apply nested_step, IH. Qed.
Lemma stays n i : result (s_lib (at_ n)) i = Some (ret 0) -> forall m, (n <= m)%nat -> result (s_lib (at_ m)) i = Some (ret 0).
Proof.
  intros H m Hm. induction Hm as [|m Hm IH]; [exact H|]. rewrite at_S. destruct (f m) as [a|]; cbn [sstep].
  - destruct (s_open (at_ m)); [exact IH|]. cbn [s_lib]. apply result_turn, IH.
  - destruct (_ <? _)%nat; exact IH.
Qed.
Hypothesis Goes_on : forall n, exists m a, (n <= m)%nat /\ f m = Goes a.
Variable n0 : nat.
Hypothesis Good : forall m a, (n0 <= m)%nat -> f m = Goes a -> good_answer a.
Lemma next_grows n : (s_next (at_ n) <= s_next (at_ (Datatypes.S n)))%nat.
Proof. rewrite at_S. destruct (f n); cbn [sstep]; [destruct (s_open _); cbn; lia|destruct (_ <? _)%nat; cbn; lia]. Qed.
(** Until the innermost call takes an action nothing but new calls happens. *)
Lemma wait d : forall n, (exists a, f (n + d)%nat = Goes a) -> exists m, (n <= m)%nat /\
  ((s_next (at_ n) < s_next (at_ m))%nat \/ (at_ m = at_ n /\ exists a, f m = Goes a)).
Proof.
  induction d as [|d IH]; intros n (a & Ha).
  - rewrite Nat.add_0_r in Ha. exists n. split; [lia|]. right. eauto.
  - destruct (f n) as [b|] eqn:Ef; [exists n; split; [lia|right; eauto]|].
    destruct (IH (Datatypes.S n)) as (m & Hm & H); [exists a; rewrite <- Ha; f_equal; lia|].
    pose proof (at_S n) as E. rewrite Ef in E. cbn [sstep] in E. destruct (Nat.ltb_spec (s_next (at_ n)) (length (x_thr (s_lib (at_ n))))) as [Hl|Hl].
    + exists (Datatypes.S n). split; [lia|]. left. rewrite E. cbn [s_next]. lia.
    + rewrite E in H. exists m. split; [lia|exact H].
Qed.
(** The innermost call returns, or another call is made. *)
Lemma top_moves n i l : (n0 <= n)%nat -> s_open (at_ n) = i :: l -> fin i (s_lib (at_ n)) ->
  exists m, (n <= m)%nat /\ ((s_next (at_ n) < s_next (at_ m))%nat \/ (s_next (at_ m) = s_next (at_ n) /\ s_open (at_ m) = l)).
Proof.
  intros Hn Eo Hf. remember (s_lib (at_ n)) as x eqn:Ex. revert n Hn Eo Ex. induction Hf as [x Hd|x Hs IH]; intros n Hn Eo ->.
  - destruct (Goes_on n) as (d & a & Hd' & Ha). replace d with (n + (d - n))%nat in Ha by lia. destruct (wait (d - n) n (ex_intro _ a Ha)) as (m & Hm & [Hw|(E & b & Hb)]); [eauto|].
    exists (Datatypes.S m). split; [lia|]. right. rewrite at_S, Hb, E. cbn [sstep]. rewrite Eo. cbn [s_next s_open]. split; [reflexivity|].
    destruct (result (s_lib (at_ n)) i) as [r|] eqn:Er; [|congruence]. rewrite (result_turn st rqs (i, b) _ i r Er). reflexivity.
  - destruct (Goes_on n) as (d & a & Hd' & Ha). replace d with (n + (d - n))%nat in Ha by lia. destruct (wait (d - n) n (ex_intro _ a Ha)) as (m & Hm & [Hw|(E & b & Hb)]); [eauto|].
    pose proof (at_S m) as Em. rewrite Hb, E in Em. cbn [sstep] in Em. rewrite Eo in Em.
    destruct (result (xturn st rqs (i, b) (s_lib (at_ n))) i) as [r|] eqn:Er.
    + exists (Datatypes.S m). split; [lia|]. right. rewrite Em. cbn [s_next s_open]. auto.
    + destruct (IH b (Good m b ltac:(lia) Hb) (Datatypes.S m)) as (m' & Hm' & H); [lia|rewrite Em; reflexivity|rewrite Em; reflexivity|].
      exists m'. split; [lia|]. rewrite Em in H. cbn [s_next] in H. exact H.
Qed.
Lemma returns_in d : forall n i, (n0 <= n)%nat -> (length cs - s_next (at_ n) <= d)%nat -> (i < s_next (at_ n))%nat ->
  exists m, (n <= m)%nat /\ result (s_lib (at_ m)) i = Some (ret 0).
Proof.
  induction d as [d IHd] using (well_founded_induction Wf_nat.lt_wf). intros n i Hn Hd Hi.
  remember (length (s_open (at_ n))) as h eqn:Eh. revert n Hn Hd Hi Eh. induction h as [|h IHh]; intros n Hn Hd Hi Eh.
  - destruct (at_nested n) as (_ & _ & _ & _ & _ & _ & _ & Hdn). exists n. split; [lia|]. destruct (Hdn i Hi) as [H|H]; [|exact H]. destruct (s_open (at_ n)); [destruct H|discriminate].
  - destruct (s_open (at_ n)) as [|j l] eqn:Eo; [discriminate|]. pose proof (fin_top _ j l (at_nested n) Eo) as Hf.
    destruct (top_moves n j l Hn Eo Hf) as (m & Hm & [Hw|(E1 & E2)]).
    + assert (Hl : (s_next (at_ m) <= length cs)%nat) by (apply (at_nested m)).
      destruct (IHd (length cs - s_next (at_ m))%nat ltac:(lia) m i ltac:(lia) (Nat.le_refl _) ltac:(lia)) as (m' & Hm' & H). exists m'. split; [lia|exact H].
    + destruct (IHh m ltac:(lia)) as (m' & Hm' & H); [rewrite E1; exact Hd|rewrite E1; exact Hi|rewrite E2; cbn in Eh; lia|]. exists m'. split; [lia|exact H].
Qed.
Lemma returns_at n i : (i < s_next (at_ n))%nat -> exists N, forall m, (N <= m)%nat -> result (s_lib (at_ m)) i = Some (ret 0).
Proof.
  intros Hi. assert (G : forall k, (s_next (at_ n) <= s_next (at_ (n + k)))%nat).
  { induction k as [|k IH]; [rewrite Nat.add_0_r; lia|]. rewrite Nat.add_succ_r. pose proof (next_grows (n + k)%nat). lia. }
  destruct (returns_in (length cs) (n + n0)%nat i) as (m & Hm & H); [lia|lia|pose proof (G n0); lia|]. exists m. intros m' Hm'. apply (stays m i H m' Hm').
Qed.
End Live.

(** In every infinite run in which the thread goes on again and again, and in which from some
    moment on open() succeeds and read() gives at least one byte, every call that is made
    returns, the interrupted ones too, however many handlers come at whatever moments.
    (Between threads this needs fairness: C37_waits_for_others.) *)
Theorem C56_returns : forall C mem g cs stk rqs lock fds pos st (f : nat -> event), setting C mem cs stk rqs lock fds st ->
  let at_ n := srun st rqs (map f (seq 0 n)) (sbegin C mem g cs stk rqs lock fds pos) in
  (forall n, exists m a, (n <= m)%nat /\ f m = Goes a) ->
  (exists n, forall m a, (n <= m)%nat -> f m = Goes a -> succeeds a) ->
  forall n i, (i < s_next (at_ n))%nat -> exists N, forall m, (N <= m)%nat -> result (s_lib (at_ m)) i = Some (ret 0).
Proof.
  intros C mem g cs stk rqs lock fds pos st f HS at_ Hgo (n0 & Hgood) n i Hi.
  exact (returns_at C mem g cs stk rqs lock fds pos st HS f Hgo n0 Hgood n i Hi).
Qed.
Print Assumptions C56_returns.

(** ** The portable AES does not allow it *)
(** AES128_enc_sch of src/aes/aes_c.c with its global [state], without AES instructions:
    encryption a is interrupted, the handler makes encryption b, on buffers of its own, and
    returns with the right result; then a goes on.  It overwrites what b had returned, and its
    own output is wrong too. *)
Theorem C56_portable_refuted : exists mem g n1 n2 n3 a b,
  (forall i j, nth_error [a; b] i = Some j -> ready mem j) /\ separate [a; b] /\
  (forall i j, nth_error [a; b] i = Some j -> disjoint (j_out j) 16 (j_sch j) (j_schlen j)) /\
  let w1 := exec (repeat 0%nat n1 ++ repeat 1%nat n2) (mkw mem g (map c_call [a; b])) in
  map ended (w_thr w1) = [None; Some (ret tt)] /\ holds (w_mem w1) (j_out b) 16 (j_result b) /\
  let w2 := exec (repeat 0%nat n3) w1 in
  map ended (w_thr w2) = [Some (ret tt); Some (ret tt)] /\
  ~ holds (w_mem w2) (j_out a) 16 (j_result a) /\ ~ holds (w_mem w2) (j_out b) 16 (j_result b).
Proof.
  exists ex_mem, 0, 33%nat, (32 * 100)%nat, (32 * 100)%nat, (ex_job 0 176 208), (ex_job 1 192 224).
  destruct C22_hyps as (H1 & H2 & H3). split; [exact H1|]. split; [exact H2|]. split; [exact H3|]. cbv zeta.
  assert (V : let w1 := exec (repeat 0%nat 33 ++ repeat 1%nat (32 * 100)) (mkw ex_mem 0 (map c_call ex_jobs)) in
    (map ended (w_thr w1), zlen (w_mem w1), leqb (zslice (w_mem w1) 224 16) (j_result (ex_job 1 192 224))) = ([None; Some (ret tt)], 240, true)) by (vm_compute; reflexivity).
  cbv zeta in V. change [ex_job 0 176 208; ex_job 1 192 224] with ex_jobs.
  destruct (ex_concl (exec ex_sched (mkw ex_mem 0 (map c_call ex_jobs))) ex_run) as (E1 & E2 & E3 & _).
  assert (S : exec ex_sched (mkw ex_mem 0 (map c_call ex_jobs)) =
     exec (repeat 0%nat (32 * 100)) (exec (repeat 0%nat 33 ++ repeat 1%nat (32 * 100)) (mkw ex_mem 0 (map c_call ex_jobs)))) by (rewrite <- exec_app, <- app_assoc; reflexivity).
  rewrite S in E1, E2, E3. revert V E1 E2 E3. generalize (exec (repeat 0%nat 33 ++ repeat 1%nat (32 * 100)) (mkw ex_mem 0 (map c_call ex_jobs))). intros w1 V E1 E2 E3.
  pose proof (f_equal (fun x => fst (fst x)) V) as V1. pose proof (f_equal (fun x => snd (fst x)) V) as V2. pose proof (f_equal snd V) as V3. cbn [fst snd] in V1, V2, V3.
  split; [exact V1|]. split; [|split; [exact E1|split; [exact E2|exact E3]]]. split; [unfold region; cbn [j_out ex_job]; rewrite V2; lia|]. unfold leqb in V3. destruct (list_eq_dec _ _ _) as [E|E]; [exact E|discriminate].
Qed.
Print Assumptions C56_portable_refuted.

(** ** A case that meets the hypotheses: the calls of C41, the second made by a handler in the
    middle of the first, the third by a handler in the middle of the second; the first hundred
    system calls fail and reads give 5 bytes. *)
Example C56_hyps :
  let f (n : nat) := match n with 0%nat | 7%nat | 11%nat => Comes | _ =>
    Goes {| an_open := if (n <? 100)%nat then None else Some 3%nat; an_read := if (n <? 100)%nat then RErr else RGive 5 |} end in
  let st p := (p * p + 7) mod 256 in
  let rqs := [(0, 0); (0, 24); (100, 64)] in
  setting C976 mem3 cs3a (zrep 200 0) rqs (-1) [] st /\
  (forall n, exists m a, (n <= m)%nat /\ f m = Goes a) /\
  (exists n, forall m a, (n <= m)%nat -> f m = Goes a -> succeeds a) /\
  s_next (srun st rqs (map f (seq 0 12)) (sbegin C976 mem3 0 cs3a (zrep 200 0) rqs (-1) [] 0)) = 3%nat.
Proof.
  intros f st rqs. split; [exact C41_hyps|].
  assert (F : forall n, exists a, f (100 + n)%nat = Goes a /\ an_open a = Some 3%nat /\ an_read a = RGive 5).
  { intros n. eexists. split; [reflexivity|]. split; reflexivity. }
  split; [|split].
  - intros n. destruct (F n) as (a & Ha & _). exists (100 + n)%nat, a. split; [lia|exact Ha].
  - exists 100%nat. intros m a Hm Ha. destruct (F (m - 100)%nat) as (b & Hb & Ho & Hr). replace (100 + (m - 100))%nat with m in Hb by lia. rewrite Ha in Hb. injection Hb as <-.
    split; [rewrite Ho; discriminate|]. exists 5. split; [exact Hr|lia].
  - destruct (made st rqs 3 (map f (seq 0 12)) (sbegin C976 mem3 0 cs3a (zrep 200 0) rqs (-1) [] 0)) as (_ & E & _); [cbn [s_lib sbegin begin x_thr]; rewrite map_length; reflexivity|cbn; lia|cbn; lia|].
    rewrite E. reflexivity.
Qed.
