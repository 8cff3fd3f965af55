(** C61: make -j. *)
From Coq Require Import String List Bool Arith Lia.
From Verif Require Import CSem Params Kem Build BuildSpec BuildProofs PropBuild ParMake ParMakeProofs ParResume.
Import ListNotations.
Local Open Scope string_scope.
Local Open Scope nat_scope.

(** The files after a history of runs of make that ends with make clean. *)
Definition cleaned (h : list event) : tree := {| t_objs := after (h ++ make_clean)%list; t_dir := fun _ => None |}.

Lemma after_make h o l M x : config_h (defines o) = Some M ->
  after (h ++ [Make o l]) x = match after h x with Some m => Some m | None => if mem_obj x l then Some M else None end.
Proof. intros HM. rewrite after_snoc. cbn [event_step st_objs]. rewrite HM. apply compile_spec. Qed.
Lemma after_lib h v : after (h ++ [Lib v]) = after h.
Proof. rewrite after_snoc. reflexivity. Qed.
Lemma after_clean h x : after (h ++ make_clean) x = None.
Proof.
  unfold after, after_all. rewrite fold_left_app. unfold make_clean. cbn [fold_left event_step st_objs].
  replace (mem_obj x all_objs) with true by (symmetry; apply mem_obj_in; unfold all_objs; destruct x as [[]| | | | | | | |]; cbn; auto 12).
  reflexivity.
Qed.
Lemma test_program h dirs o M v : config_h (defines o) = Some M ->
  build h o TestKEM v = link_with o TestKEM v (libA o M {| t_objs := after h; t_dir := dirs |} v).
Proof.
  intros HM. unfold build, link_with. rewrite HM. cbn [before_link].
  assert (E : archive_of (after (h ++ [Make o (lib_objs v o); Lib v])) (lib_objs v o) = Some (libA o M {| t_objs := after h; t_dir := dirs |} v)).
  { unfold libA. apply archive_F. intros x Hx. change [Make o (lib_objs v o); Lib v] with ([Make o (lib_objs v o)] ++ [Lib v])%list.
    rewrite app_assoc, after_lib, (after_make _ _ _ M) by exact HM. rewrite (proj2 (mem_obj_in _ _) Hx). reflexivity. }
  rewrite E. reflexivity.
Qed.
Lemma made_all h o M x : config_h (defines o) = Some M ->
  after ((h ++ make_clean) ++ make_libs o)%list x = None \/ after ((h ++ make_clean) ++ make_libs o)%list x = Some M.
Proof.
  intros HM. unfold make_libs. cbn [map concat app].
  change [Make o (lib_objs V640 o); Lib V640; Make o (lib_objs V976 o); Lib V976; Make o (lib_objs V1344 o); Lib V1344]
    with ([Make o (lib_objs V640 o)] ++ [Lib V640] ++ [Make o (lib_objs V976 o)] ++ [Lib V976] ++ [Make o (lib_objs V1344 o)] ++ [Lib V1344])%list.
  rewrite !app_assoc. rewrite !after_lib, !(after_make _ _ _ M) by exact HM. rewrite after_lib, (after_make _ _ _ M) by exact HM.
  rewrite after_lib, (after_make _ _ _ M) by exact HM.
  rewrite after_clean.
  repeat (destruct (mem_obj x _)); auto.
Qed.
Lemma clean_program h o M p v : config_h (defines o) = Some M ->
  build (h ++ make_clean ++ make_libs o)%list o p v =
  link_with o p v (match p with TestKEM => libA o M (cleaned h) v | TestKAT => katA o M (cleaned h) v end).
Proof.
  intros HM. rewrite app_assoc. unfold build, link_with. rewrite HM.
  assert (FX : forall x, F M (cleaned h) x = Some M) by (intros x; unfold F, cleaned; cbn [t_objs]; rewrite after_clean; reflexivity).
  assert (K : forall l x, In x l -> after (((h ++ make_clean) ++ make_libs o) ++ [Make o l])%list x = F M (cleaned h) x).
  { intros l x Hx. rewrite FX, (after_make _ _ _ M) by exact HM. rewrite (proj2 (mem_obj_in _ _) Hx).
    destruct (made_all h o M x HM) as [-> | ->]; reflexivity. }
  destruct p; cbn [before_link].
  - change [Make o (lib_objs v o); Lib v] with ([Make o (lib_objs v o)] ++ [Lib v])%list. rewrite app_assoc, after_lib.
    rewrite (archive_F M (cleaned h)) by (intros x Hx; apply K, Hx). reflexivity.
  - change [Make o (kat_objs v o); Kats o v] with ([Make o (kat_objs v o)] ++ [Kats o v])%list. rewrite app_assoc, kat_snoc.
    cbn [event_step]. fold (after (((h ++ make_clean) ++ make_libs o) ++ [Make o (kat_objs v o)])%list).
    rewrite (archive_F M (cleaned h)) by (intros x Hx; apply K, Hx).
    assert (D : st_dir (after_all (((h ++ make_clean) ++ make_libs o) ++ [Make o (kat_objs v o)])%list) v = Some []).
    { rewrite after_all_snoc. cbn [event_step st_dir]. unfold after_all. rewrite fold_left_app.
      unfold make_libs. cbn [map concat app fold_left event_step st_dir]. unfold set_dir. destruct v; reflexivity. }
    rewrite D. cbn [st_dir]. unfold set_dir. destruct (variant_eq_dec v v); [|congruence].
    unfold katA. pose proof (ar_fresh M (cleaned h) _ (nodup_kat v o)) as Z. unfold ar_rcs in Z. rewrite Z. reflexivity.
Qed.
Lemma clean_links h o M : config_h (defines o) = Some M -> links_all o M (cleaned h).
Proof.
  intros HM v. split.
  - rewrite <- (clean_program h o M TestKEM v HM). destruct (C48_clean h o TestKEM v LE) as (l & C & -> & _). discriminate.
  - rewrite <- (clean_program h o M TestKAT v HM). destruct (C48_clean h o TestKAT v LE) as (l & C & -> & _). discriminate.
Qed.
Lemma cleaned_cl h : cl (cleaned h).
Proof. intros v. reflexivity. Qed.
Lemma exit0_jobs w : exit0 w = true -> w_job w JTests = Running [] /\ w_job w JKats = Running [].
Proof. unfold exit0, goals. cbn [forallb]. rewrite !andb_true_iff, !done_eq. tauto. Qed.

(** After make clean, with whatever options and however the recipes are interleaved: if make -j reports success, then all six
    programs are there, and contain the code and compute the function that the options name (as in C48_clean). *)
Theorem C61_clean : forall h o sched, let w := make_j o (cleaned h) sched in exit0 w = true ->
  forall p v en, exists l C, program_in (w_tree w) p v = Some l /\ code_of en v l = Some C /\
    cP C = params_of v /\ cEn C = en /\ cImpl C = impl_named o /\ cGen C = gen_named o /\
    (cGen C = GenAES -> cAes C = aes_named o) /\
    (en = LE \/ impl_named o = Reference -> is_frodokem C (params_of v) (gen_named o)).
Proof.
  intros h o sched w HE p v en. destruct (config_ok o) as (M & HM & _). destruct (exit0_jobs w HE) as (HT & HK).
  destruct (C48_clean h o p v en) as (l & C & Hl & HC). exists l, C. split; [|exact HC].
  rewrite (clean_program h o M p v HM) in Hl. destruct p.
  - destruct (make_tests o M (cleaned h) HM sched v HT) as (a & E1 & E2). unfold w. congruence.
  - destruct (make_kats o M (cleaned h) HM sched v (cleaned_cl h) HK) as (a & E1 & E2). unfold w. congruence.
Qed.
Print Assumptions C61_clean.

(** Without make clean, with whatever files are there: the self tests still come out as without -j. *)
Theorem C61_tests : forall h dirs o sched v, let w := make_j o {| t_objs := after h; t_dir := dirs |} sched in
  exit0 w = true -> exists l, program_in (w_tree w) TestKEM v = Some l /\ build h o TestKEM v = Some l.
Proof.
  intros h dirs o sched v w HE. destruct (config_ok o) as (M & HM & _). destruct (exit0_jobs w HE) as (HT & _).
  destruct (make_tests o M {| t_objs := after h; t_dir := dirs |} HM sched v HT) as (a & E1 & E2). exists a. split; [exact E1|].
  rewrite (test_program h dirs o M v HM). exact E2.
Qed.
Print Assumptions C61_tests.

(** make without -j succeeds after make clean, with all options. *)
Theorem C61_serial : forall h o, exit0 (make_j o (cleaned h) (serial o)) = true.
Proof.
  intros h o. destruct (config_ok o) as (M & HM & _). apply (serial_ends o M (cleaned h) HM (cleaned_cl h)). apply clean_links, HM.
Qed.
Print Assumptions C61_serial.

(** Which interleavings are safe: nothing fails if no target of the KATs is touched before the three libraries are made, as in
    "make -j lib640 lib976 lib1344" followed by "make -j". *)
Definition is_kat (j : job) : Prop := j = JKats \/ exists v, j = JKLib v.
Theorem C61_two_steps : forall h o first second,
  (forall j, In j first -> ~ is_kat j) ->
  (forall v, w_job (make_j o (cleaned h) first) (JLib v) = Running []) ->
  w_stop (make_j o (cleaned h) (first ++ second)) = false.
Proof.
  intros h o s1 s2 H1 H2. destruct (config_ok o) as (M & HM & _). pose proof (clean_links h o M HM) as HL.
  unfold make_j. rewrite fold_left_app. apply (fold_ok o M (cleaned h) HM); [apply Inv_make, HM|apply cleaned_cl|exact HL| |left; exact H2].
  apply (fold_ok o M (cleaned h) HM); [apply Inv_begin|apply cleaned_cl|exact HL|reflexivity|].
  right. apply Forall_forall. intros j Hj. destruct j; try reflexivity; exfalso; apply (H1 _ Hj); [right; eauto|left; reflexivity].
Qed.
Print Assumptions C61_two_steps.
(** The first step can be the first half of make without -j; the second is arbitrary. *)
Example C61_two_steps_hyps : let o := default_options in
  let first := firstn 60 (serial o) in
  forallb (fun j => match j with JKats | JKLib _ => false | _ => true end) first = true /\
  (forall v, w_job (make_j o (cleaned []) first) (JLib v) = Running []).
Proof. split; [vm_compute; reflexivity|]. intros []; vm_compute; reflexivity. Qed.

(** make -j always ends, whatever files are there: if every target gets turns again and again, then at some point all goals are
    made or a line of a recipe has failed. *)
Theorem C61_ends : forall o T (sched : nat -> job), (forall n j, exists m, n <= m /\ sched m = j) ->
  exists n, let w := make_j o T (map sched (seq 0 n)) in exit0 w = true \/ w_stop w = true.
Proof. intros o T sched fair. exact (run_ends o T sched fair). Qed.
Print Assumptions C61_ends.
(** A schedule that gives every target a turn again and again: all targets in turn. *)
Example C61_ends_hyps : let sched n := nth (n mod List.length all_jobs) all_jobs JTests in
  forall n j, exists m, n <= m /\ sched m = j.
Proof.
  intros sched n j. destruct (In_nth all_jobs j JTests (in_all_jobs j)) as (i & Hi & E).
  set (k := List.length all_jobs) in *. assert (K : k <> 0) by (intros Z; rewrite Z in Hi; inversion Hi).
  exists (n * k + i). split; [nia|]. unfold sched. fold k. replace (n * k + i) with (i + n * k) by lia.
  rewrite Nat.mod_add by exact K. rewrite Nat.mod_small by exact Hi. exact E.
Qed.

(** make -j may fail where make succeeds: with all options, after make clean, there is an interleaving after which make can only
    fail, whatever follows.  lib640_for_KATs is not ordered after lib640, which makes the directory. *)
Theorem C61_succeeds_refuted : forall h o, exists sched, forall more, exit0 (make_j o (cleaned h) (sched ++ more)) = false.
Proof.
  intros h o. destruct (config_ok o) as (M & HM & _). pose proof (clean_links h o M HM) as HL.
  set (objs := concat (map whole (map JObj (kat_objs V640 o)))).
  exists (objs ++ [JKLib V640; JKLib V640])%list. intros more.
  assert (G0 : good o M (cleaned h) (begin (cleaned h))) by (split; [apply Inv_begin|split; [reflexivity|intros k; left; reflexivity]]).
  destruct (good_objs o M (cleaned h) HM (kat_objs V640 o) _ (cleaned_cl h) HL G0) as (G1 & D1). fold objs in G1, D1.
  assert (N : forall k, (forall x, k <> JObj x) -> w_job (fold_left (turn o) objs (begin (cleaned h))) k = Waiting).
  { intros k Hk. rewrite fold_other; [reflexivity|]. intros I. apply in_concat in I as (l & I1 & I2). apply in_map_iff in I1 as (j & <- & I1).
    apply in_map_iff in I1 as (x & <- & _). apply repeat_spec in I2. exact (Hk x I2). }
  set (w1 := fold_left (turn o) objs (begin (cleaned h))) in *. destruct G1 as (I1 & S1 & _).
  apply (failed_exit o M (cleaned h) _ V640); [apply Inv_make, HM|].
  unfold make_j. rewrite <- app_assoc, fold_left_app. fold w1. cbn [app fold_left]. apply fold_failed.
  assert (E : turn o w1 (JKLib V640) = {| w_tree := w_tree w1; w_job := set_job (w_job w1) (JKLib V640) (Running (recipe (JKLib V640))); w_stop := false |}).
  { unfold turn. rewrite (N (JKLib V640)) by discriminate. rewrite S1. rewrite (proj2 (forallb_forall _ _)); [reflexivity|].
    intros k Hk. cbn [prereqs] in Hk. apply in_map_iff in Hk as (x & <- & Hx). apply done_eq, D1, Hx. }
  rewrite E. unfold turn at 1. cbn [w_job]. rewrite set_eq. cbn [recipe exec_cmd w_tree].
  pose proof (v_lib _ _ _ _ _ _ _ _ _ (i_v _ _ _ _ I1 V640)) as V. rewrite (N (JLib V640)) in V by discriminate. cbn [libinv] in V.
  rewrite (V (cleaned_cl h)). reflexivity.
Qed.
Print Assumptions C61_succeeds_refuted.

(** It may also report success although a program is missing: after an earlier make, whose directories are there, lib640 may
    remove its directory after the KAT program was put there. *)
Definition kats_first (o : options) : list job :=
  (concat (map whole (map JObj all_objs)) ++ concat (map whole [JKLib V640; JKLib V976; JKLib V1344; JKats]) ++
   concat (map whole [JLib V640; JLib V976; JLib V1344; JTests]))%list.
Theorem C61_success_refuted : let o := default_options in
  let T := w_tree (make_j o (cleaned []) (serial o)) in
  program_in T TestKAT V640 <> None /\
  exists sched, exit0 (make_j o T sched) = true /\ program_in (w_tree (make_j o T sched)) TestKAT V640 = None.
Proof. split; [vm_compute; discriminate|]. exists (kats_first default_options). split; vm_compute; reflexivity. Qed.
Print Assumptions C61_success_refuted.

(** Runs of make with the options o that were stopped, each after some turns.  What is left in the three directories may be
    anything, half-written files among them.  Simplification: an object file is written as a whole (make removes the one it was
    writing when it is interrupted). *)
Definition stopped (o : options) (T : tree) (runs : list (list job * (variant -> option dir))) : tree :=
  fold_left (fun T r => {| t_objs := t_objs (w_tree (make_j o T (fst r))); t_dir := snd r |}) runs T.
Lemma stopped_objs h o M runs x : config_h (defines o) = Some M ->
  t_objs (stopped o (cleaned h) runs) x = None \/ t_objs (stopped o (cleaned h) runs) x = Some M.
Proof.
  intros HM. unfold stopped.
  assert (K : forall T, (t_objs T x = None \/ t_objs T x = Some M) ->
    let T' := fold_left (fun T r => {| t_objs := t_objs (w_tree (make_j o T (fst r))); t_dir := snd r |}) runs T in
    t_objs T' x = None \/ t_objs T' x = Some M).
  { induction runs as [|r runs IH]; intros T H; [exact H|]. cbn [fold_left]. apply IH. cbn [t_objs].
    destruct (objs_after o M T (fst r) x HM) as [-> | ->]; [exact H|]. unfold F. destruct (t_objs T x); [|right; reflexivity]. destruct H; [discriminate|right; assumption]. }
  apply K. left. cbn [cleaned t_objs]. apply after_clean.
Qed.
Lemma stopped_lists h o M runs (l : list obj) : config_h (defines o) = Some M ->
  map (fun x => (x, mac (F M (stopped o (cleaned h) runs)) x)) l = map (fun x => (x, mac (F M (cleaned h)) x)) l.
Proof.
  intros HM. apply map_ext. intros x. f_equal. unfold mac, F.
  assert (E : t_objs (cleaned h) x = None) by (cbn [cleaned t_objs]; apply after_clean). rewrite E.
  destruct (stopped_objs h o M runs x HM) as [-> | ->]; reflexivity.
Qed.

(** make (without -j) can be stopped at any point, any number of times, also while it runs as make -j, and started again with the
    same options: it succeeds, and all six programs come out as if it had never been stopped. *)
Theorem C61_resumed : forall h o runs, let w := make_j o (stopped o (cleaned h) runs) (serial o) in
  exit0 w = true /\
  forall p v en, exists l C, program_in (w_tree w) p v = Some l /\ code_of en v l = Some C /\
    cP C = params_of v /\ cEn C = en /\ cImpl C = impl_named o /\ cGen C = gen_named o /\
    (cGen C = GenAES -> cAes C = aes_named o) /\
    (en = LE \/ impl_named o = Reference -> is_frodokem C (params_of v) (gen_named o)).
Proof.
  intros h o runs. destruct (config_ok o) as (M & HM & _).
  assert (EL : forall v, libA o M (stopped o (cleaned h) runs) v = libA o M (cleaned h) v) by (intros v; apply stopped_lists, HM).
  assert (EK : forall v, katA o M (stopped o (cleaned h) runs) v = katA o M (cleaned h) v) by (intros v; apply stopped_lists, HM).
  assert (HL : links_all o M (stopped o (cleaned h) runs)) by (intros v; rewrite EL, EK; apply clean_links, HM).
  destruct (serial_any o M _ HM HL) as (E0 & E1). split; [exact E0|]. intros p v en.
  destruct (C48_clean h o p v en) as (l & C & Hl & HC). exists l, C. split; [|exact HC].
  rewrite (clean_program h o M p v HM) in Hl. destruct (E1 p v) as (a & A1 & A2). rewrite EL, EK in A2. congruence.
Qed.
Print Assumptions C61_resumed.
(** The same for the self tests if make -j, in whatever interleaving, is started again and reports success. *)
Theorem C61_resumed_tests : forall h o runs sched v en, let w := make_j o (stopped o (cleaned h) runs) sched in exit0 w = true ->
  exists l C, program_in (w_tree w) TestKEM v = Some l /\ code_of en v l = Some C /\
    cP C = params_of v /\ cEn C = en /\ cImpl C = impl_named o /\ cGen C = gen_named o /\
    (cGen C = GenAES -> cAes C = aes_named o) /\
    (en = LE \/ impl_named o = Reference -> is_frodokem C (params_of v) (gen_named o)).
Proof.
  intros h o runs sched v en w HE. destruct (config_ok o) as (M & HM & _). destruct (exit0_jobs w HE) as (HT & _).
  destruct (C48_clean h o TestKEM v en) as (l & C & Hl & HC). exists l, C. split; [|exact HC].
  rewrite (clean_program h o M TestKEM v HM) in Hl.
  destruct (make_tests o M (stopped o (cleaned h) runs) HM sched v HT) as (a & A1 & A2).
  assert (EL : libA o M (stopped o (cleaned h) runs) v = libA o M (cleaned h) v) by apply stopped_lists, HM.
  rewrite EL in A2. unfold w. congruence.
Qed.
Print Assumptions C61_resumed_tests.
(** Two stopped runs, of make without -j and of another interleaving; the second leaves an empty directory frodo640. *)
Example C61_resumed_hyps : let o := default_options in
  let s1 := firstn 30 (serial o) in let s2 := firstn 50 (kats_first o) in
  let T1 := w_tree (make_j o (cleaned []) s1) in
  let T := stopped o (cleaned []) [(s1, t_dir T1); (s2, fun v => match v with V640 => Some empty_dir | _ => None end)] in
  t_objs T OUtil <> None /\ t_dir T V640 <> None /\ exit0 (make_j o (cleaned []) s1) = false /\ exit0 (make_j o T1 s2) = false.
Proof. vm_compute. repeat split; discriminate. Qed.
