(** C49: threads that hand keys and ciphertexts to one another between rounds (Unix). *)
From Verif Require Import CSem Params FrodoSpec Macrify PropMatrix Kem KemProofs KemWp FrodoFacts PropKem Conc ConcProofs ConcKem ConcKemProofs PropConcKem
  Random ConcRandom ConcRandomProofs PropConcRandom ConcLib ConcLibProofs Process PropProcess ConcHist ConcHistProofs PropConcHist ConcRounds ConcRoundsProofs.

(** A round in a memory of [size] bytes.  The arguments of all calls lie in it, inside one round no
    thread writes where another reads or writes, every action has a buffer for its random bytes,
    and the buffers are apart. *)
Definition round_ok (P : params) (size : Z) (rd : round) : Prop :=
  (forall me l s a, In (me, l) (r_thr rd) -> In (s, a) l -> placed P size a) /\
  (forall i j me me' l l' x, i <> j -> nth_error (r_thr rd) i = Some (me, l) -> nth_error (r_thr rd) j = Some (me', l') ->
     writes_at P l x -> uses_at P l' x -> False) /\
  (forall me l s a, In (me, l) (r_thr rd) -> In (s, a) l -> exists b, nth_error (r_rqs rd) s = Some (b, takes P a)) /\
  NoDup (concat (map (fun ml => map fst (snd ml)) (r_thr rd))) /\
  requests_ok (r_stk rd) (r_rqs rd).
(** The program before a round. *)
Definition state_ok (s : shared) : Prop := bytes_ok (s_mem s) /\ device_ok (s_lock s) (s_fds s).
(** The actions of a round, those of the first thread first; those of all rounds. *)
Definition in_turn (rd : round) : list action := map snd (concat (map snd (r_thr rd))).
Definition in_turns (rds : list round) : list action := concat (map in_turn rds).

Lemma round_setting C st rd s : valid (cP C) -> build_ok C -> reentrant C -> (forall p, 0 <= st p < 256) ->
  state_ok s -> round_ok (cP C) (zlen (s_mem s)) rd -> setting C (s_mem s) (r_thr rd) (r_stk rd) (r_rqs rd) (s_lock s) (s_fds s) st.
Proof.
  intros V Hb Hr Hst (Bm & Hd) (H1 & H2 & H3 & H4 & H5). unfold setting.
  split; [exact V|]. split; [exact Hb|]. split; [exact Hr|]. split.
  { intros i me l R Hi HR. apply C45_placed; try assumption. apply Forall_forall. intros [s' a] Hin. apply (H1 me l s' a); [apply (nth_error_In _ _ Hi)|exact Hin]. }
  split; [exact H2|]. split; [intros i me l s' a Hi Hin; apply (H3 me l s' a); [apply (nth_error_In _ _ Hi)|exact Hin]|]. auto.
Qed.
Lemma begin_start rd s : begin_round rd s = hstart (s_mem s) (s_g s) (r_thr rd) (r_stk rd) (r_rqs rd) (s_lock s) (s_fds s) (s_pos s).
Proof. reflexivity. Qed.

Lemma NoDup_concat_map {A} (l : list (list (nat * A))) : NoDup (concat (map (map fst) l)) -> NoDup (map fst (concat l)).
Proof. rewrite concat_map. auto. Qed.

Lemma round_result C st rd sched s cs s' : valid (cP C) -> build_ok C -> reentrant C -> (forall p, 0 <= st p < 256) ->
  state_ok s -> round_ok (cP C) (zlen (s_mem s)) rd -> run_round C st rd sched s = Some (cs, s') ->
  state_ok s' /\ zlen (s_mem s') = zlen (s_mem s) /\ s_g s' = s_g s /\ s_pos s <= s_pos s' /\
  cs = map (fun ml => repeat 0 (length (snd ml))) (r_thr rd) /\
  forall p0, exists pi, fresh_in pi p0 (p0 + taken (cP C) (in_turn rd)) (s_pos s) (s_pos s') /\
    s_mem s' = history (cP C) (cGen C) (fun p => st (pi p)) (in_turn rd) p0 (s_mem s).
Proof.
  intros V Hb Hre Hst Hs Hrd Hrun. pose proof (round_setting C st rd s V Hb Hre Hst Hs Hrd) as HS.
  unfold run_round in Hrun. rewrite begin_start in Hrun.
  pose proof (C45_threads C (s_mem s) (s_g s) (r_thr rd) (r_stk rd) (r_rqs rd) (s_lock s) (s_fds s) (s_pos s) st sched HS) as K. cbv zeta in K.
  assert (Hpre : forall i me l, nth_error (r_thr rd) i = Some (me, l) -> exists rest, nth_error (r_thr rd) i = Some (me, l ++ rest)) by (intros i me l H; exists []; rewrite app_nil_r; exact H).
  destruct (sim_run C (s_mem s) (s_g s) (r_thr rd) (r_stk rd) (r_rqs rd) (s_lock s) (s_fds s) (s_pos s) st HS (r_thr rd) Hpre sched) as (s1 & s2 & HM).
  set (w := hexec C st (r_rqs rd) sched _) in *.
  destruct (all_ended w) eqn:AE; [|discriminate]. injection Hrun as <- <-. cbn [s_mem s_g s_pos s_lock s_fds].
  destruct K as (Lw & Gw & Fw & _ & Cw & src & Uw & Pw & Mw & Dw).
  pose proof (simm_rinv C (s_mem s) (s_g s) (r_thr rd) (r_stk rd) (r_rqs rd) (s_lock s) (s_fds s) (s_pos s) st HS (r_thr rd) s1 s2 w HM) as (_ & _ & Hpos & _ & (D1 & D2 & _) & _).
  destruct HM as (_ & LT & Hok & _).
  (* every thread has done everything *)
  assert (ALL : forall i me l, nth_error (r_thr rd) i = Some (me, l) -> exists t, nth_error (h_thr w) i = Some t /\ t_now t = None /\ t_codes t = repeat 0 (length l)).
  { intros i me l Hi. destruct (nth_error (h_thr w) i) as [t|] eqn:Et; [|apply nth_error_None in Et; assert (i < length (r_thr rd))%nat by (apply nth_error_Some; congruence); lia].
    exists t. split; [reflexivity|]. unfold all_ended in AE. rewrite forallb_forall in AE. pose proof (AE t (nth_error_In _ _ Et)) as At.
    destruct (t_now t) eqn:En; [discriminate|]. destruct (t_left t) eqn:El; [|discriminate]. split; [reflexivity|].
    destruct (Hok i (me, l) t Hi Et) as (_ & done & Ld & _ & Hn). rewrite En, El, app_nil_r in Hn. cbn [snd] in Hn. rewrite (Cw i t Et), <- Ld, <- Hn. reflexivity. }
  destruct Hs as (Bm & Hd). destruct Hrd as (R1 & R2 & R3 & R4 & R5).
  set (acts := concat (map snd (r_thr rd))).
  assert (INA : forall s0 a, In (s0, a) acts -> exists me l, In (me, l) (r_thr rd) /\ In (s0, a) l).
  { intros s0 a Hin. apply in_concat in Hin as (l & Hl & Hin). apply in_map_iff in Hl as ([me l'] & <- & Hl). exists me, l'. auto. }
  assert (DID : forall s0 a, In (s0, a) acts -> exists i n, did w (r_thr rd) i n s0 a).
  { intros s0 a Hin. destruct (INA s0 a Hin) as (me & l & Hl & Hin'). apply In_nth_error in Hl as (i & Hi). apply In_nth_error in Hin' as (n & Hn).
    destruct (ALL i me l Hi) as (t & Ht & _ & Hc). exists i, n, me, l, t. repeat (split; [assumption|]). rewrite Hc, repeat_length. apply nth_error_Some. congruence. }
  assert (SZ : forall l, In l (map snd (r_thr rd)) -> sized (cP C) (drawn (r_rqs rd) st src) l).
  { intros l Hl s0 a Hin. apply in_map_iff in Hl as ([me l'] & <- & Hl). cbn [snd] in Hin. destruct (R3 me l' s0 a Hl Hin) as (b & Hb2). unfold drawn. rewrite Hb2.
    pose proof (takes_nonneg C a V). split; [apply zlen_ztab; lia|apply inrange_ztab; auto]. }
  assert (OBO : zlen (after_all (cP C) (cGen C) (drawn (r_rqs rd) st src) acts (s_mem s)) = zlen (s_mem s) /\ bytes_ok (after_all (cP C) (cGen C) (drawn (r_rqs rd) st src) acts (s_mem s)) /\
    (forall x, 0 <= x < zlen (s_mem s) -> (forall l, In l (map snd (r_thr rd)) -> ~ writes_at (cP C) l x) -> znth (after_all (cP C) (cGen C) (drawn (r_rqs rd) st src) acts (s_mem s)) x = znth (s_mem s) x) /\
    (forall i l x, 0 <= x < zlen (s_mem s) -> nth_error (map snd (r_thr rd)) i = Some l -> uses_at (cP C) l x ->
      znth (after_all (cP C) (cGen C) (drawn (r_rqs rd) st src) acts (s_mem s)) x = znth (after_all (cP C) (cGen C) (drawn (r_rqs rd) st src) l (s_mem s)) x)).
  { apply one_by_one; auto.
    - intros m Lm Bmm l Hl. pose proof (SZ l Hl) as Hsz. apply in_map_iff in Hl as ([me l'] & <- & Hl). cbn [snd] in *.
      apply placed_after; auto. apply Forall_forall. intros [s0 a] Hin. rewrite Lm. apply (R1 me l' s0 a); assumption.
    - intros i j l l' x Hij Hi Hj. rewrite nth_error_map in Hi, Hj. destruct (nth_error (r_thr rd) i) as [[me a]|] eqn:Ei; [|discriminate]. destruct (nth_error (r_thr rd) j) as [[me' b]|] eqn:Ej; [|discriminate].
      cbn in Hi, Hj. injection Hi as <-. injection Hj as <-. apply (R2 i j me me' a b x Hij Ei Ej). }
  destruct OBO as (O1 & O2 & O3 & O4).
  assert (EM : h_mem w = after_all (cP C) (cGen C) (drawn (r_rqs rd) st src) acts (s_mem s)).
  { apply list_ext; [lia|]. intros x Hx.
    assert (DEC : (exists i me l, nth_error (r_thr rd) i = Some (me, l) /\ writes_at (cP C) l x) \/ (forall i me l, nth_error (r_thr rd) i = Some (me, l) -> ~ writes_at (cP C) l x)).
    { assert (WD : forall l, writes_at (cP C) l x \/ ~ writes_at (cP C) l x).
      { assert (ID : forall r, within r x \/ ~ within r x).
        { induction r as [|[o n] r IH]; [right; intros (? & ? & [] & _)|]. destruct IH as [(o' & n' & Hin & Hx')|IH]; [left; exists o', n'; split; [right; exact Hin|exact Hx']|].
          destruct (Z_le_gt_dec o x); [destruct (Z_lt_ge_dec x (o + n))|].
          - left. exists o, n. split; [left; reflexivity|lia].
          - right. intros (o' & n' & [E|Hin] & Hx'); [injection E as <- <-; lia|]. apply IH. exists o', n'. auto.
          - right. intros (o' & n' & [E|Hin] & Hx'); [injection E as <- <-; lia|]. apply IH. exists o', n'. auto. }
        induction l as [|[s0 a] l IH]; [right; intros (? & ? & [] & _)|]. destruct IH as [(s' & a' & Hin & Hx')|IH]; [left; exists s', a'; split; [right; exact Hin|exact Hx']|].
        destruct (ID (written (cP C) a)) as [Hy|Hn]; [left; exists s0, a; split; [left; reflexivity|exact Hy]|].
        right. intros (s' & a' & [E|Hin] & Hx'); [injection E as <- <-; contradiction|]. apply IH. exists s', a'. auto. }
      clear - WD. induction (r_thr rd) as [|[me l] ls IH]; [right; intros [|i]; discriminate|].
      destruct (WD l) as [Hy|Hn]; [left; exists O, me, l; auto|]. destruct IH as [(i & me' & l' & Hi & Hw)|IH]; [left; exists (S i), me', l'; auto|].
      right. intros [|i] me' l' Hi; cbn in Hi; [injection Hi as <- <-; exact Hn|apply (IH i me' l' Hi)]. }
    destruct DEC as [(i & me & l & Hi & Hw)|Hn].
    - assert (Hu : uses_at (cP C) l x) by (destruct Hw as (s0 & a & Hin & (o & n & Ho & Hx')); exists s0, a; split; [exact Hin|]; exists o, n; split; [apply in_or_app; left; exact Ho|exact Hx']).
      destruct (ALL i me l Hi) as (t & Ht & Hnow & Hc).
      rewrite (Uw i me l (length l) x Hi); [|exists t; split; [exact Ht|]; split; [exact Hnow|rewrite Hc; apply repeat_length]|exact Hu].
      rewrite firstn_all. symmetry. apply (O4 i l x); [lia|rewrite nth_error_map, Hi; reflexivity|exact Hu].
    - rewrite (Fw x Hn). symmetry. apply O3; [lia|]. intros l Hl. apply in_map_iff in Hl as ([me l'] & <- & Hl). apply In_nth_error in Hl as (i & Hi). apply (Hn i me l' Hi). }
  split; [split; [rewrite EM; exact O2|split; [exact D1|exact D2]]|]. split; [exact Lw|]. split; [exact Gw|]. split; [exact Hpos|]. split.
  { clear - ALL LT. revert LT ALL. generalize (h_thr w) as ts. generalize (r_thr rd) as ls. induction ls as [|[me l] ls IH]; intros [|t ts] LT ALL; cbn in LT; try discriminate; [reflexivity|].
    cbn [map]. f_equal; [|apply IH; [lia|intros i me' l' Hi; apply (ALL (S i) me' l' Hi)]]. destruct (ALL O me l eq_refl) as (t' & Ht & _ & Hc). cbn in Ht. injection Ht as <-. exact Hc. }
  intros p0.
  assert (ND : NoDup (map fst acts)) by (apply NoDup_concat_map; rewrite map_map; exact R4).
  destruct (one_stream C st (r_rqs rd) src acts V Hst) with (p0 := p0) as (pi & P1 & P2 & P3).
  - intros s0 a Hin. destruct (INA s0 a Hin) as (me & l & Hl & Hin'). apply (R3 me l s0 a Hl Hin').
  - exact ND.
  - intros s0 a Hin. destruct (DID s0 a Hin) as (i & n & Hdid). apply (Mw i n s0 a Hdid).
  - intros s0 a s0' b Hin Hin' Hne. destruct (DID s0 a Hin) as (i & n & Hdid). destruct (DID s0' b Hin') as (j & m & Hdid').
    apply (Dw i n s0 a j m s0' b Hdid Hdid'). intros E. injection E as <- <-.
    destruct Hdid as (me & l & t & Hi & _ & Hn & _). destruct Hdid' as (me' & l' & t' & Hi' & _ & Hn' & _). rewrite Hi in Hi'. injection Hi' as <- <-. rewrite Hn in Hn'. injection Hn' as <- <-. apply Hne. reflexivity.
  - exists pi. split; [|rewrite EM; apply P3]. split; [|exact P2].
    intros p Hp. destruct (P1 p Hp) as (s0 & a & k & Hin & Hk & ->). destruct (DID s0 a Hin) as (i & n & Hdid). apply (Pw i n s0 a Hdid k Hk).
Qed.

(** Whatever the schedules and whatever the system answers: once all rounds have ended, the
    memory is that of a single thread doing the same actions one after another, round by round,
    with random bytes the device has delivered ([pi] says where in its stream each of them comes
    from; none is used twice), all calls have returned 0, and the state is fit for further rounds. *)
Theorem C49_rounds : forall C st l s css s',
  valid (cP C) -> build_ok C -> reentrant C -> (forall p, 0 <= st p < 256) ->
  state_ok s -> (forall rd, In rd (map fst l) -> round_ok (cP C) (zlen (s_mem s)) rd) ->
  run_rounds C st l s = Some (css, s') ->
  let acts := in_turns (map fst l) in
  state_ok s' /\ zlen (s_mem s') = zlen (s_mem s) /\ s_g s' = s_g s /\ s_pos s <= s_pos s' /\
  css = map (fun rd => map (fun ml => repeat 0 (length (snd ml))) (r_thr rd)) (map fst l) /\
  exists pi,
    (forall p, 0 <= p < taken (cP C) acts -> s_pos s <= pi p < s_pos s') /\
    (forall p q, 0 <= p < taken (cP C) acts -> 0 <= q < taken (cP C) acts -> p <> q -> pi p <> pi q) /\
    s_mem s' = history (cP C) (cGen C) (fun p => st (pi p)) acts 0 (s_mem s).
Proof.
  intros C st l s css s' V Hb Hre Hst Hs Hl Hrun. cbv zeta.
  assert (GEN : forall l s css s', state_ok s -> (forall rd, In rd (map fst l) -> round_ok (cP C) (zlen (s_mem s)) rd) -> run_rounds C st l s = Some (css, s') ->
    state_ok s' /\ zlen (s_mem s') = zlen (s_mem s) /\ s_g s' = s_g s /\ s_pos s <= s_pos s' /\
    css = map (fun rd => map (fun ml => repeat 0 (length (snd ml))) (r_thr rd)) (map fst l) /\
    forall p0, exists pi, fresh_in pi p0 (p0 + taken (cP C) (in_turns (map fst l))) (s_pos s) (s_pos s') /\
      s_mem s' = history (cP C) (cGen C) (fun p => st (pi p)) (in_turns (map fst l)) p0 (s_mem s)).
  { clear l s css s' Hs Hl Hrun. induction l as [|[rd sched] l IH]; intros s css s' Hs Hl Hrun; cbn [run_rounds] in Hrun.
    - injection Hrun as <- <-. split; [exact Hs|]. split; [reflexivity|]. split; [reflexivity|]. split; [lia|]. split; [reflexivity|]. intros p0. exists (fun p => p).
      split; [split; cbn; intros; lia|reflexivity].
    - destruct (run_round C st rd sched s) as [[cs s1]|] eqn:E1; [|discriminate]. destruct (run_rounds C st l s1) as [[css1 s2]|] eqn:E2; [|discriminate]. injection Hrun as <- <-.
      destruct (round_result C st rd sched s cs s1 V Hb Hre Hst Hs ltac:(apply Hl; left; reflexivity) E1) as (S1 & L1 & G1 & Q1 & C1 & K1).
      destruct (IH s1 css1 s2 S1 ltac:(intros rd' Hin; rewrite L1; apply Hl; right; exact Hin) E2) as (S2 & L2 & G2 & Q2 & C2 & K2).
      split; [exact S2|]. split; [lia|]. split; [congruence|]. split; [lia|]. split; [cbn [map fst]; f_equal; assumption|]. intros p0.
      destruct (K1 p0) as (pi1 & (A1 & A2) & A3). destruct (K2 (p0 + taken (cP C) (in_turn rd))) as (pi2 & (B1 & B2) & B3).
      pose proof (taken_nonneg C (in_turn rd) V) as T1. pose proof (taken_nonneg C (in_turns (map fst l)) V) as T2.
      exists (fun p => if p <? p0 + taken (cP C) (in_turn rd) then pi1 p else pi2 p).
      unfold in_turns in *. cbn [map fst concat]. rewrite taken_app. split; [split|].
      + intros p Hp. destruct (Z.ltb_spec p (p0 + taken (cP C) (in_turn rd))); [pose proof (A1 p ltac:(lia))|pose proof (B1 p ltac:(lia))]; lia.
      + intros p q Hp Hq Hne. destruct (Z.ltb_spec p (p0 + taken (cP C) (in_turn rd))); destruct (Z.ltb_spec q (p0 + taken (cP C) (in_turn rd))).
        * apply A2; lia.
        * pose proof (A1 p ltac:(lia)); pose proof (B1 q ltac:(lia)); lia.
        * pose proof (B1 p ltac:(lia)); pose proof (A1 q ltac:(lia)); lia.
        * apply B2; lia.
      + rewrite history_app. rewrite B3, A3.
        rewrite (history_ext C (fun p => st (if p <? p0 + taken (cP C) (in_turn rd) then pi1 p else pi2 p)) (fun p => st (pi1 p)) (in_turn rd) V p0 (s_mem s)).
        2:{ intros i Hi. destruct (Z.ltb_spec i (p0 + taken (cP C) (in_turn rd))); [reflexivity|lia]. }
        apply history_ext; [exact V|]. intros i Hi. destruct (Z.ltb_spec i (p0 + taken (cP C) (in_turn rd))); [lia|reflexivity]. }
  destruct (GEN l s css s' Hs Hl Hrun) as (S1 & L1 & G1 & Q1 & C1 & K). repeat (split; [assumption|]). destruct (K 0) as (pi & (P1 & P2) & P3). exists pi. auto.
Qed.
Print Assumptions C49_rounds.

(** During a round nothing goes wrong either. *)
Theorem C49_no_fault : forall C st l s css s' rd sched,
  valid (cP C) -> build_ok C -> reentrant C -> (forall p, 0 <= st p < 256) ->
  state_ok s -> (forall rd', In rd' (map fst l) \/ rd' = rd -> round_ok (cP C) (zlen (s_mem s)) rd') ->
  run_rounds C st l s = Some (css, s') ->
  let w := hexec C st (r_rqs rd) sched (begin_round rd s') in
  (forall i, ~ faulted w i) /\ (forall i t c, nth_error (h_thr w) i = Some t -> In c (t_codes t) -> c = 0).
Proof.
  intros C st l s css s' rd sched V Hb Hre Hst Hs Hl Hrun w.
  destruct (C49_rounds C st l s css s' V Hb Hre Hst Hs (fun rd' H => Hl rd' (or_introl H)) Hrun) as (S1 & L1 & _).
  pose proof (round_setting C st rd s' V Hb Hre Hst S1 ltac:(rewrite L1; apply Hl; right; reflexivity)) as HS.
  destruct (C45_threads C (s_mem s') (s_g s') (r_thr rd) (r_stk rd) (r_rqs rd) (s_lock s') (s_fds s') (s_pos s') st sched HS) as (_ & _ & _ & F & Cz & _).
  split; [exact F|]. intros i t c Ht Hc. rewrite (Cz i t Ht) in Hc. apply repeat_spec in Hc. exact Hc.
Qed.
Print Assumptions C49_no_fault.

(** All rounds end if in each of them every thread gets its turns and the system delivers in the end. *)
Theorem C49_ends : forall C st rds (f : nat -> nat -> nat * answer) s,
  valid (cP C) -> build_ok C -> reentrant C -> (forall p, 0 <= st p < 256) ->
  state_ok s -> (forall rd, In rd rds -> round_ok (cP C) (zlen (s_mem s)) rd) ->
  (forall j rd, nth_error rds j = Some rd ->
     (forall i n, (i < length (r_thr rd))%nat -> exists m, (n <= m)%nat /\ fst (f j m) = i) /\
     (exists n, forall m, (n <= m)%nat -> succeeds (snd (f j m)))) ->
  exists ns css s', length ns = length rds /\
    run_rounds C st (combine rds (map (fun jn => map (f (fst jn)) (seq 0 (snd jn))) (combine (seq 0 (length ns)) ns))) s = Some (css, s').
Proof.
  intros C st rds f s V Hb Hre Hst.
  assert (GEN : forall rds j0 s, state_ok s -> (forall rd, In rd rds -> round_ok (cP C) (zlen (s_mem s)) rd) ->
    (forall j rd, nth_error rds j = Some rd ->
       (forall i n, (i < length (r_thr rd))%nat -> exists m, (n <= m)%nat /\ fst (f (j0 + j)%nat m) = i) /\
       (exists n, forall m, (n <= m)%nat -> succeeds (snd (f (j0 + j)%nat m)))) ->
    exists ns css s', length ns = length rds /\
      run_rounds C st (combine rds (map (fun jn => map (f (fst jn)) (seq 0 (snd jn))) (combine (seq j0 (length ns)) ns))) s = Some (css, s')).
  { clear rds s. induction rds as [|rd rds IH]; intros j0 s Hs Hl Hf; [exists [], [], s; split; reflexivity|].
    pose proof (round_setting C st rd s V Hb Hre Hst Hs ltac:(apply Hl; left; reflexivity)) as HS.
    destruct (Hf O rd eq_refl) as (F1 & F2). rewrite Nat.add_0_r in F1, F2.
    destruct (C45_returns C (s_mem s) (s_g s) (r_thr rd) (r_stk rd) (r_rqs rd) (s_lock s) (s_fds s) (s_pos s) st (f j0) HS F1 F2) as (N & HN).
    set (w := hexec C st (r_rqs rd) (map (f j0) (seq 0 N)) (hstart (s_mem s) (s_g s) (r_thr rd) (r_stk rd) (r_rqs rd) (s_lock s) (s_fds s) (s_pos s))) in *.
    assert (R : exists cs s1, run_round C st rd (map (f j0) (seq 0 N)) s = Some (cs, s1)).
    { unfold run_round. rewrite begin_start. fold w. replace (all_ended w) with true; [eauto|]. symmetry. unfold all_ended. apply forallb_forall. intros t Ht.
      assert (Hpre : forall i me l, nth_error (r_thr rd) i = Some (me, l) -> exists rest, nth_error (r_thr rd) i = Some (me, l ++ rest)) by (intros i me l H; exists []; rewrite app_nil_r; exact H).
      destruct (sim_run C (s_mem s) (s_g s) (r_thr rd) (r_stk rd) (r_rqs rd) (s_lock s) (s_fds s) (s_pos s) st HS (r_thr rd) Hpre (map (f j0) (seq 0 N))) as (s1 & s2 & (_ & LT & Hok & _)). fold w in LT, Hok.
      apply In_nth_error in Ht as (i & Ht). assert (Hi : exists ml, nth_error (r_thr rd) i = Some ml).
      { assert (i < length (r_thr rd))%nat by (rewrite <- LT; apply nth_error_Some; congruence). destruct (nth_error (r_thr rd) i) eqn:E; [eauto|apply nth_error_None in E; lia]. }
      destruct Hi as ([me l] & Hi). destruct (HN N i me l (le_n N) Hi) as (t' & Ht' & En & Ec). fold w in Ht'. rewrite Ht in Ht'. injection Ht' as <-.
      destruct (Hok i (me, l) t Hi Ht) as (_ & done & Ld & _ & Hn). rewrite En in *. cbn [snd] in Hn. rewrite Ec, repeat_length in Ld.
      destruct (t_left t) as [|x y]; [reflexivity|]. exfalso. apply (f_equal (@length _)) in Hn. rewrite app_length in Hn. cbn in Hn. lia. }
    destruct R as (cs & s1 & R). destruct (round_result C st rd _ s cs s1 V Hb Hre Hst Hs ltac:(apply Hl; left; reflexivity) R) as (S1 & L1 & _).
    destruct (IH (S j0) s1 S1) as (ns & css & s' & Ln & Hr).
    { intros rd' Hin. rewrite L1. apply Hl. right. exact Hin. }
    { intros j rd' Hj. destruct (Hf (S j) rd' Hj) as (X1 & X2). replace (S j0 + j)%nat with (j0 + S j)%nat by lia. auto. }
    exists (N :: ns), (cs :: css), s'. split; [cbn; lia|]. cbn [length seq combine map fst snd run_rounds]. rewrite R, Hr. reflexivity. }
  intros Hs Hl Hf. apply (GEN rds O s Hs Hl). exact Hf.
Qed.
Print Assumptions C49_ends.

(** ** A key exchange between threads *)
Definition keeps (P : params) (l : list action) (a n : Z) : Prop := forall b o m, In b l -> In (o, m) (written P b) -> disjoint o m a n.
Lemma history_keeps C st l : valid (cP C) -> (forall i, 0 <= st i < 256) -> forall p mem a n, bytes_ok mem -> Forall (placed (cP C) (zlen mem)) l ->
  region mem a n -> 0 <= n -> keeps (cP C) l a n ->
  zlen (history (cP C) (cGen C) st l p mem) = zlen mem /\ bytes_ok (history (cP C) (cGen C) st l p mem) /\
  zslice (history (cP C) (cGen C) st l p mem) a n = zslice mem a n.
Proof.
  intros V Hst. induction l as [|b l IH]; intros p mem a n Bm Hl (R1 & R2) Hn Hk; cbn [history]; [auto|].
  inversion Hl as [|? ? Hb Hl']; subst. pose proof (C43_placed C st [b] p mem V Hst Bm ltac:(constructor; [exact Hb|constructor])) as (Hf & _).
  destruct (effect_frame C st b p mem V Hf) as (L & F). pose proof (effect_bytes C st b p mem V Hst Bm Hb) as Be.
  destruct (IH (p + takes (cP C) b) (effect (cP C) (cGen C) st b p mem) a n Be) as (I1 & I2 & I3); [rewrite L; exact Hl'|split; lia|exact Hn|intros c o m Hc; apply Hk; right; exact Hc|].
  split; [lia|]. split; [exact I2|]. rewrite I3. apply list_ext; [rewrite !zlen_zslice by lia; reflexivity|]. rewrite zlen_zslice by lia. intros i Hi.
  rewrite !znth_zslice by lia. apply F; [lia|]. intros o m Ho Hin. specialize (Hk b o m (or_introl eq_refl) Ho). unfold disjoint in Hk. lia.
Qed.
Lemma history_session C st h1 h2 h3 h4 pk sk ct ss ss' mem : let P := cP C in
  valid P -> (forall i, 0 <= st i < 256) -> bytes_ok mem ->
  let l := h1 ++ AKeyPair pk sk :: h2 ++ AEnc ct ss pk :: h3 ++ ADec ss' ct sk :: h4 in
  Forall (placed P (zlen mem)) l ->
  keeps P h2 pk (pkBytes P) -> keeps P (h2 ++ AEnc ct ss pk :: h3) sk (skBytes P) ->
  disjoint ss (pCB P) ct (ctBytes P) -> keeps P h3 ct (ctBytes P) -> keeps P (h3 ++ ADec ss' ct sk :: h4) ss (pCB P) -> keeps P h4 ss' (pCB P) ->
  let p1 := taken P h1 in
  let s := segment st p1 (pCB P) in let seedSE := segment st (p1 + pCB P) (pCB P) in let z := segment st (p1 + 2 * pCB P) 16 in
  let mu := segment st (taken P (h1 ++ AKeyPair pk sk :: h2)) (bytesMu P) in
  (forall t, 0 <= t < 64 -> tolerated (pD P) (pB P) (noise P seedSE (Hash P (fst (KeyGen P (cGen C) s seedSE z)) (pCB P)) mu t)) ->
  zslice (history P (cGen C) st l 0 mem) ss' (pCB P) = zslice (history P (cGen C) st l 0 mem) ss (pCB P) /\
  zslice (history P (cGen C) st l 0 mem) ss (pCB P) = snd (Encaps P (cGen C) (fst (KeyGen P (cGen C) s seedSE z)) mu).
Proof.
  intros P V Hst Bm l Hl K2p K2s Dis K3c K3s K4 p1 s seedSE z mu Hok.
  destruct (sizes C V) as (HN & HD & HB & HCB & ENN & EbB & HDN & EbC & EbMu & EP & ES & EC & Esp & EH). fold P in HN, HD, HB, HCB, ENN, EbB, HDN, EbC, EbMu, EP, ES, EC, Esp, EH.
  assert (Hin : forall a, In a l -> placed P (zlen mem) a) by (apply Forall_forall; exact Hl).
  assert (SUB : forall h, (forall a, In a h -> In a l) -> Forall (placed P (zlen mem)) h) by (intros h Hh; apply Forall_forall; auto).
  assert (S1 : Forall (placed P (zlen mem)) h1) by (apply SUB; intros a Ha; unfold l; rewrite in_app_iff; auto).
  assert (SK1 : placed P (zlen mem) (AKeyPair pk sk)) by (apply Hin; unfold l; rewrite in_app_iff; right; left; reflexivity).
  assert (S2 : Forall (placed P (zlen mem)) h2) by (apply SUB; intros a Ha; unfold l; rewrite in_app_iff; right; right; rewrite in_app_iff; auto).
  assert (SE : placed P (zlen mem) (AEnc ct ss pk)) by (apply Hin; unfold l; rewrite in_app_iff; right; right; rewrite in_app_iff; right; left; reflexivity).
  assert (S3 : Forall (placed P (zlen mem)) h3) by (apply SUB; intros a Ha; unfold l; rewrite in_app_iff; right; right; rewrite in_app_iff; right; right; rewrite in_app_iff; auto).
  assert (SD : placed P (zlen mem) (ADec ss' ct sk)) by (apply Hin; unfold l; rewrite in_app_iff; right; right; rewrite in_app_iff; right; right; rewrite in_app_iff; right; left; reflexivity).
  assert (S4 : Forall (placed P (zlen mem)) h4) by (apply SUB; intros a Ha; unfold l; rewrite in_app_iff; right; right; rewrite in_app_iff; right; right; rewrite in_app_iff; right; right; exact Ha).
  unfold l. rewrite history_app. cbn [history]. rewrite history_app. cbn [history]. rewrite history_app. cbn [history]. rewrite !Z.add_0_l.
  (* the memories in between *)
  destruct (history_keeps C st h1 V Hst 0 mem 0 0 Bm S1 ltac:(split; pose proof (zlen_nonneg mem); lia) ltac:(lia)) as (L1 & B1 & _).
  { intros b o m Hb Ho. unfold disjoint. pose proof (proj1 (Forall_forall _ _) S1 b Hb) as Hp. destruct b as [? ?|? ? ?|? ? ?|? ?]; cbn [written In placed] in *;
      repeat destruct Ho as [Ho|Ho]; try contradiction; injection Ho as <- <-; lia. }
  fold P in L1, B1. set (m1 := history P (cGen C) st h1 0 mem) in *. fold p1.
  pose proof (effect_bytes C st (AKeyPair pk sk) p1 m1 V Hst B1 ltac:(fold P; rewrite L1; exact SK1)) as Bk. fold P in Bk.
  pose proof (C43_placed C st [AKeyPair pk sk] p1 m1 V Hst B1 ltac:(constructor; [fold P; rewrite L1; exact SK1|constructor])) as (Fk & _). fold P in Fk.
  destruct (effect_frame C st (AKeyPair pk sk) p1 m1 V Fk) as (Lk & _). fold P in Lk. set (mk := effect P (cGen C) st (AKeyPair pk sk) p1 m1) in *.
  set (p2 := p1 + takes P (AKeyPair pk sk)). cbn [placed] in SK1, SE, SD.
  destruct (history_keeps C st h2 V Hst p2 mk pk (pkBytes P) Bk) as (L2 & B2 & E2p); try (fold P); [rewrite Lk, L1; exact S2|unfold region; lia|lia|exact K2p|].
  destruct (history_keeps C st h2 V Hst p2 mk sk (skBytes P) Bk) as (_ & _ & E2s); try (fold P); [rewrite Lk, L1; exact S2|unfold region; lia|lia|intros b o m Hb; apply K2s; apply in_or_app; left; exact Hb|].
  fold P in L2, B2, E2p, E2s. set (m2 := history P (cGen C) st h2 p2 mk) in *. set (p3 := p2 + taken P h2).
  assert (Emu : mu = segment st p3 (bytesMu P)) by (unfold mu, p3, p2, p1; rewrite taken_app; cbn [taken]; f_equal; lia).
  pose proof (effect_bytes C st (AEnc ct ss pk) p3 m2 V Hst B2 ltac:(fold P; rewrite L2, Lk, L1; exact SE)) as Be. fold P in Be.
  pose proof (C43_placed C st [AEnc ct ss pk] p3 m2 V Hst B2 ltac:(constructor; [fold P; rewrite L2, Lk, L1; exact SE|constructor])) as (Fe & _). fold P in Fe.
  destruct (effect_frame C st (AEnc ct ss pk) p3 m2 V Fe) as (Le & Fr). fold P in Le, Fr. set (me := effect P (cGen C) st (AEnc ct ss pk) p3 m2) in *.
  set (p4 := p3 + takes P (AEnc ct ss pk)).
  assert (Ees : zslice me sk (skBytes P) = zslice m2 sk (skBytes P)).
  { apply list_ext; [rewrite !zlen_zslice by lia; reflexivity|]. rewrite zlen_zslice by lia. intros i Hi. rewrite !znth_zslice by lia. apply Fr; [lia|].
    intros o n Ho Hx. specialize (K2s (AEnc ct ss pk) o n ltac:(apply in_or_app; right; left; reflexivity) Ho). unfold disjoint in K2s. lia. }
  destruct (history_keeps C st h3 V Hst p4 me sk (skBytes P) Be) as (L3 & B3 & E3s); try (fold P); [rewrite Le, L2, Lk, L1; exact S3|unfold region; lia|lia|intros b o m Hb; apply K2s; apply in_or_app; right; right; exact Hb|].
  destruct (history_keeps C st h3 V Hst p4 me ct (ctBytes P) Be) as (_ & _ & E3c); try (fold P); [rewrite Le, L2, Lk, L1; exact S3|unfold region; lia|lia|exact K3c|].
  destruct (history_keeps C st h3 V Hst p4 me ss (pCB P) Be) as (_ & _ & E3q); try (fold P); [rewrite Le, L2, Lk, L1; exact S3|unfold region; lia|lia|intros b o m Hb; apply K3s; apply in_or_app; left; exact Hb|].
  fold P in L3, B3, E3s, E3c, E3q. set (m3 := history P (cGen C) st h3 p4 me) in *. set (p5 := p4 + taken P h3).
  pose proof (effect_bytes C st (ADec ss' ct sk) p5 m3 V Hst B3 ltac:(fold P; rewrite L3, Le, L2, Lk, L1; exact SD)) as Bd. fold P in Bd.
  pose proof (C43_placed C st [ADec ss' ct sk] p5 m3 V Hst B3 ltac:(constructor; [fold P; rewrite L3, Le, L2, Lk, L1; exact SD|constructor])) as (Fd & _). fold P in Fd.
  destruct (effect_frame C st (ADec ss' ct sk) p5 m3 V Fd) as (Ld & Frd). fold P in Ld, Frd. set (md := effect P (cGen C) st (ADec ss' ct sk) p5 m3) in *.
  assert (Edq : zslice md ss (pCB P) = zslice m3 ss (pCB P)).
  { apply list_ext; [rewrite !zlen_zslice by lia; reflexivity|]. rewrite zlen_zslice by lia. intros i Hi. rewrite !znth_zslice by lia. apply Frd; [lia|].
    intros o n Ho Hx. specialize (K3s (ADec ss' ct sk) o n ltac:(apply in_or_app; right; left; reflexivity) Ho). unfold disjoint in K3s. lia. }
  destruct (history_keeps C st h4 V Hst (p5 + takes P (ADec ss' ct sk)) md ss' (pCB P) Bd) as (_ & _ & E4a); try (fold P); [rewrite Ld, L3, Le, L2, Lk, L1; exact S4|unfold region; lia|lia|exact K4|].
  destruct (history_keeps C st h4 V Hst (p5 + takes P (ADec ss' ct sk)) md ss (pCB P) Bd) as (_ & _ & E4b); try (fold P); [rewrite Ld, L3, Le, L2, Lk, L1; exact S4|unfold region; lia|lia|intros b o m Hb; apply K3s; apply in_or_app; right; right; exact Hb|].
  fold P in E4a, E4b. rewrite E4a, E4b, Edq, E3q.
  (* what the three calls compute *)
  assert (Hsb : bytestr (pCB P) s) by (apply segment_bytes; [exact Hst|lia]). assert (Hmu : bytestr (bytesMu P) mu) by (apply segment_bytes; [exact Hst|lia]).
  pose proof (KeyGen_parts P (cGen C) V s seedSE z (proj1 Hsb)) as KP.
  pose proof (Decrypt_Encaps P (cGen C) V s seedSE z mu (proj1 Hsb) (proj1 Hmu) (proj2 Hmu)) as HDec.
  pose proof (Encaps_reencrypt P (cGen C) V s seedSE z mu (proj1 Hsb)) as HR.
  cbn [fits] in Fk, Fe, Fd. destruct Fk as (R1 & R2 & Dk). unfold mk in E2p, E2s, Lk. cbn [effect] in E2p, E2s, Lk. fold s seedSE z in E2p, E2s, Lk.
  destruct (KeyGen P (cGen C) s seedSE z) as [PK0 SK0]. destruct KP as (LPK & BPK & LSK & BSK & _). cbn [fst] in *.
  assert (R1' : region m1 pk (zlen PK0)) by (rewrite LPK; exact R1).
  assert (EPK : zslice m2 pk (pkBytes P) = PK0).
  { rewrite E2p. rewrite read_stored_other; [apply read_stored; auto| | |lia|rewrite LSK; unfold disjoint in *; lia];
      unfold region; rewrite (stored_len _ _ _ R1'), ?LSK; assumption. }
  assert (ESK : zslice m2 sk (skBytes P) = SK0).
  { rewrite E2s. apply read_stored; [exact LSK|]. unfold region. rewrite (stored_len _ _ _ R1'). exact R2. }
  assert (EQ : me = let '(CT, SS) := Encaps P (cGen C) PK0 mu in stored (stored m2 ct CT) ss SS) by (unfold me; cbn [effect]; rewrite EPK, <- Emu; reflexivity).
  pose proof (Encaps_shape P (cGen C) V PK0 mu) as KS.
  destruct (Encaps P (cGen C) PK0 mu) as [CT SS]. destruct KS as (LCT & BCT & LSS & BSS). destruct HR as (HR & HS). cbn [snd].
  destruct Fe as (R3 & R4 & _). assert (R3' : region m2 ct (zlen CT)) by (rewrite LCT; exact R3).
  assert (ECT : zslice me ct (ctBytes P) = CT).
  { rewrite EQ. rewrite read_stored_other; [apply read_stored; auto| | |lia|rewrite LSS; exact Dis];
      unfold region; rewrite (stored_len _ _ _ R3'), ?LSS; assumption. }
  assert (ESS : zslice me ss (pCB P) = SS).
  { rewrite EQ. apply read_stored; [exact LSS|]. unfold region. rewrite (stored_len _ _ _ R3'). exact R4. }
  rewrite ESS. split; [|reflexivity]. apply HDec in Hok.
  unfold md. cbn [effect]. rewrite E3s, E3c, Ees, ESK, ECT.
  destruct (Decaps_cases P (cGen C) V SK0 CT LCT BCT) as (H1 & _). rewrite H1; [|unfold accepted; rewrite Hok; exact HR]. rewrite Hok, <- HS.
  apply read_stored; [exact LSS|]. apply Fd.
Qed.

(** A key exchange between threads: some thread of some round makes a key pair, later one
    encapsulates to it, later one decapsulates.  If in between nobody overwrites the keys and the
    ciphertext and afterwards nobody overwrites the two shared secrets, then the secrets at the end
    are equal whenever the noise that the random bytes lead to is tolerated in all 64 places.  The
    random bytes are bytes the device delivered, at distinct places of its stream. *)
Theorem C49_session : forall C st l s css s' h1 h2 h3 h4 pk sk ct ss ss', let P := cP C in
  valid P -> build_ok C -> reentrant C -> (forall p, 0 <= st p < 256) ->
  state_ok s -> (forall rd, In rd (map fst l) -> round_ok P (zlen (s_mem s)) rd) ->
  run_rounds C st l s = Some (css, s') ->
  in_turns (map fst l) = h1 ++ AKeyPair pk sk :: h2 ++ AEnc ct ss pk :: h3 ++ ADec ss' ct sk :: h4 ->
  keeps P h2 pk (pkBytes P) -> keeps P (h2 ++ AEnc ct ss pk :: h3) sk (skBytes P) ->
  disjoint ss (pCB P) ct (ctBytes P) -> keeps P h3 ct (ctBytes P) ->
  keeps P (h3 ++ ADec ss' ct sk :: h4) ss (pCB P) -> keeps P h4 ss' (pCB P) ->
  exists pi,
    let n := 2 * pCB P + 16 + bytesMu P in
    (forall i, 0 <= i < n -> s_pos s <= pi i < s_pos s') /\ (forall i j, 0 <= i < n -> 0 <= j < n -> i <> j -> pi i <> pi j) /\
    let r a k := ztab k (fun i => st (pi (a + i))) in
    let s0 := r 0 (pCB P) in let seedSE := r (pCB P) (pCB P) in let z := r (2 * pCB P) 16 in let mu := r (2 * pCB P + 16) (bytesMu P) in
    let PK := fst (KeyGen P (cGen C) s0 seedSE z) in
    (forall t, 0 <= t < 64 -> tolerated (pD P) (pB P) (noise P seedSE (Hash P PK (pCB P)) mu t)) ->
    zslice (s_mem s') ss' (pCB P) = zslice (s_mem s') ss (pCB P) /\ zslice (s_mem s') ss (pCB P) = snd (Encaps P (cGen C) PK mu).
Proof.
  intros C st l s css s' h1 h2 h3 h4 pk sk ct ss ss' P V Hb Hre Hst Hs Hl Hrun Hacts K2p K2s Dis K3c K3s K4.
  destruct (C49_rounds C st l s css s' V Hb Hre Hst Hs Hl Hrun) as (_ & _ & _ & _ & _ & pi & P1 & P2 & EM).
  destruct (sizes C V) as (HN & HD & HB & HCB & ENN & EbB & HDN & EbC & EbMu & EP & ES & EC & Esp & EH). fold P in HN, HD, HB, HCB, ENN, EbB, HDN, EbC, EbMu, EP, ES, EC, Esp, EH.
  assert (PL : Forall (placed P (zlen (s_mem s))) (in_turns (map fst l))).
  { apply Forall_forall. intros a Ha. unfold in_turns in Ha. apply in_concat in Ha as (x & Hx & Ha). apply in_map_iff in Hx as (rd & <- & Hrd).
    unfold in_turn in Ha. apply in_map_iff in Ha as ([k a'] & <- & Ha). apply in_concat in Ha as (y & Hy & Ha). apply in_map_iff in Hy as ([me y'] & <- & Hy).
    destruct (Hl rd Hrd) as (R1 & _). exact (R1 me y' k a' Hy Ha). }
  rewrite Hacts in *. fold P in P1, P2, EM.
  set (p1 := taken P h1). set (p2 := taken P (h1 ++ AKeyPair pk sk :: h2)).
  pose proof (taken_nonneg C h1 V) as T1. pose proof (taken_nonneg C h2 V) as T2. pose proof (taken_nonneg C h3 V) as T3. pose proof (taken_nonneg C h4 V) as T4. fold P in T1, T2, T3, T4. fold p1 in T1.
  assert (Ep2 : p2 = p1 + (2 * pCB P + 16) + taken P h2) by (unfold p2; rewrite taken_app; cbn [taken takes]; fold p1; lia).
  assert (ET : taken P (h1 ++ AKeyPair pk sk :: h2 ++ AEnc ct ss pk :: h3 ++ ADec ss' ct sk :: h4) = p2 + bytesMu P + taken P h3 + taken P h4)
    by (rewrite !taken_app; cbn [taken]; rewrite !taken_app; cbn [taken]; rewrite taken_app; cbn [taken takes]; fold p1; lia).
  rewrite ET in P1, P2.
  set (to := fun i => if i <? 2 * pCB P + 16 then p1 + i else p2 + (i - (2 * pCB P + 16))).
  assert (TO : forall i, 0 <= i < 2 * pCB P + 16 + bytesMu P -> 0 <= to i < p2 + bytesMu P + taken P h3 + taken P h4) by (intros i Hi; unfold to; destruct (Z.ltb_spec i (2 * pCB P + 16)); lia).
  assert (TI : forall i j, 0 <= i < 2 * pCB P + 16 + bytesMu P -> 0 <= j < 2 * pCB P + 16 + bytesMu P -> i <> j -> to i <> to j)
    by (intros i j Hi Hj Hne; unfold to; destruct (Z.ltb_spec i (2 * pCB P + 16)); destruct (Z.ltb_spec j (2 * pCB P + 16)); lia).
  exists (fun i => pi (to i)). cbv zeta. split; [intros i Hi; apply P1, TO, Hi|]. split; [intros i j Hi Hj Hne; apply P2; [apply TO, Hi|apply TO, Hj|apply TI; assumption]|].
  assert (SEG : forall a k b, 0 <= k -> (forall i, 0 <= i < k -> to (a + i) = b + i) -> ztab k (fun i => st (pi (to (a + i)))) = segment (fun p => st (pi p)) b k).
  { intros a k b Hk He. apply list_ext; [unfold segment; rewrite !zlen_ztab by lia; reflexivity|]. rewrite zlen_ztab by lia. intros i Hi. unfold segment. rewrite !znth_ztab by lia. rewrite He by lia. reflexivity. }
  assert (BMU : 0 <= bytesMu P) by lia.
  rewrite (SEG 0 (pCB P) p1), (SEG (pCB P) (pCB P) (p1 + pCB P)), (SEG (2 * pCB P) 16 (p1 + 2 * pCB P)), (SEG (2 * pCB P + 16) (bytesMu P) p2);
    try lia; try (intros i Hi; unfold to; match goal with |- context [?a <? ?b] => destruct (Z.ltb_spec a b) end; lia).
  intros Hok. rewrite EM.
  apply (history_session C (fun p => st (pi p)) h1 h2 h3 h4 pk sk ct ss ss' (s_mem s)); try assumption; [intros i; apply Hst|destruct Hs; assumption].
Qed.
Print Assumptions C49_session.

(** The hypotheses are met: FrodoKEM-976; one thread makes a key pair while another stores a byte,
    then two threads encapsulate to that key, then two threads decapsulate. *)
Definition rd1 : round := {| r_stk := zrep 300 0; r_rqs := [(0, 64); (0, 0)]; r_thr := [(1, [(0%nat, AKeyPair 0 16000)]); (2, [(1%nat, AStore 190000 [7])])] |}.
Definition rd2 : round := {| r_stk := zrep 300 0; r_rqs := [(0, 24); (100, 24)]; r_thr := [(1, [(0%nat, AEnc 50000 66000 0)]); (2, [(1%nat, AEnc 70000 86000 0)])] |}.
Definition rd3 : round := {| r_stk := []; r_rqs := [(0, 0); (0, 0)]; r_thr := [(1, [(0%nat, ADec 90000 50000 16000)]); (2, [(1%nat, ADec 90100 70000 16000)])] |}.
Example C49_hyps : (forall rd, In rd [rd1; rd2; rd3] -> round_ok (cP C976) 200000 rd) /\
  state_ok {| s_mem := mem3; s_g := 0; s_lock := -1; s_fds := []; s_pos := 0 |} /\ zlen mem3 = 200000.
Proof.
  assert (L : zlen mem3 = 200000) by (apply zlen_ztab; lia).
  assert (Bm : bytes_ok mem3) by (apply inrange_ztab; intros; apply mod256).
  assert (Epk : pkBytes (cP C976) = 15632) by reflexivity. assert (Esk : skBytes (cP C976) = 31296) by reflexivity.
  assert (Ect : ctBytes (cP C976) = 15744) by reflexivity. assert (ECB : pCB (cP C976) = 24) by reflexivity. assert (Emu : bytesMu (cP C976) = 24) by reflexivity.
  assert (LS : zlen (zrep 300 0) = 300) by (apply zlen_zrep; lia).
  split; [|split; [split; [exact Bm|split; [left; reflexivity|intros []]]|exact L]].
  intros rd Hrd. cbn [In] in Hrd. repeat destruct Hrd as [Hrd|Hrd]; try contradiction; subst rd; (split; [|split; [|split; [|split]]]).
  all: cbn [r_thr r_rqs r_stk rd1 rd2 rd3].
  all: match goal with
    | |- forall me l s a, _ -> _ -> placed _ _ _ =>
        intros me l s a H1 H2; cbn [In] in H1; repeat destruct H1 as [H1|H1]; try contradiction; injection H1 as <- <-; cbn [In] in H2; repeat destruct H2 as [H2|H2]; try contradiction; injection H2 as <- <-;
        unfold placed, disjoint; rewrite ?Epk, ?Esk, ?Ect, ?ECB;
        repeat match goal with |- _ /\ _ => split | |- bytes_ok _ => repeat (apply Forall_cons || apply Forall_nil) | |- _ mod _ = _ => reflexivity end; try change (zlen [7]) with 1; lia
    | |- forall i j me me' l l' x, _ =>
        intros i j me me' l l' x Hij Hi Hj (s & a & Hin & (o & n & Ho & Hx)) (s' & a' & Hin' & (o' & n' & Ho' & Hx'));
        destruct i as [|[|i]]; cbn in Hi; try (destruct i; discriminate); injection Hi as <- <-; destruct j as [|[|j]]; cbn in Hj; try (destruct j; discriminate); try congruence; injection Hj as <- <-;
        cbn [In] in Hin, Hin'; repeat destruct Hin as [Hin|Hin]; try contradiction; injection Hin as <- <-; cbn [written In] in Ho; rewrite ?Epk, ?Esk, ?Ect, ?ECB in Ho;
        repeat destruct Ho as [Ho|Ho]; try contradiction; injection Ho as <- <-;
        repeat destruct Hin' as [Hin'|Hin']; try contradiction; injection Hin' as <- <-; cbn [used written app In] in Ho'; rewrite ?Epk, ?Esk, ?Ect, ?ECB in Ho';
        repeat destruct Ho' as [Ho'|Ho']; try contradiction; injection Ho' as <- <-; try change (zlen [7]) with 1 in *; lia
    | |- forall me l s a, _ -> _ -> exists b, _ =>
        intros me l s a H1 H2; cbn [In] in H1; repeat destruct H1 as [H1|H1]; try contradiction; injection H1 as <- <-; cbn [In] in H2; repeat destruct H2 as [H2|H2]; try contradiction; injection H2 as <- <-; eexists; reflexivity
    | |- NoDup _ => cbn; repeat (constructor; [cbn; lia|]); constructor
    | |- requests_ok _ _ => split;
        [intros i a n E; apply nth_error_In in E; cbn [In] in E; repeat destruct E as [E|E]; try contradiction; injection E as <- <-; (split; [lia|]); split; rewrite ?LS; try change (zlen (@nil Z)) with 0; lia
        |intros i j a n b m Hij E F; unfold disjoint;
         do 2 (destruct i as [|i]; [do 2 (destruct j as [|j]; [cbn in E, F; try congruence; injection E as <- <-; injection F as <- <-; lia|]); destruct j; discriminate|]); destruct i; discriminate]
    end.
Qed.
Example C49_session_hyps : let P := cP C976 in
  in_turns [rd1; rd2; rd3] = [] ++ AKeyPair 0 16000 :: [AStore 190000 [7]; AEnc 50000 66000 0] ++ AEnc 70000 86000 0 :: [ADec 90000 50000 16000] ++ ADec 90100 70000 16000 :: [] /\
  keeps P [AStore 190000 [7]; AEnc 50000 66000 0] 0 (pkBytes P) /\
  keeps P ([AStore 190000 [7]; AEnc 50000 66000 0] ++ AEnc 70000 86000 0 :: [ADec 90000 50000 16000]) 16000 (skBytes P) /\
  disjoint 86000 (pCB P) 70000 (ctBytes P) /\ keeps P [ADec 90000 50000 16000] 70000 (ctBytes P) /\
  keeps P ([ADec 90000 50000 16000] ++ ADec 90100 70000 16000 :: []) 86000 (pCB P) /\ keeps P [] 90100 (pCB P).
Proof.
  cbv zeta. assert (Epk : pkBytes (cP C976) = 15632) by reflexivity. assert (Esk : skBytes (cP C976) = 31296) by reflexivity.
  assert (Ect : ctBytes (cP C976) = 15744) by reflexivity. assert (ECB : pCB (cP C976) = 24) by reflexivity.
  split; [reflexivity|]. unfold keeps, disjoint. rewrite Epk, Esk, Ect, ECB.
  repeat split; try lia; intros b o m Hb Ho; cbn [app In] in Hb; repeat destruct Hb as [Hb|Hb]; try contradiction; subst b; cbn [written In] in Ho; rewrite ?Epk, ?Esk, ?Ect, ?ECB in Ho;
    repeat destruct Ho as [Ho|Ho]; try contradiction; injection Ho as <- <-; try change (zlen [7]) with 1; lia.
Qed.
