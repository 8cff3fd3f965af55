(** Proofs about make after runs of it that were stopped (Makefile:88-189): what was left in the directories does not matter if the
    libraries are made before the targets of the KATs are touched. *)
From Coq Require Import String List Bool.
From Verif Require Import Params Build BuildSpec BuildProofs ParMake ParMakeProofs.
Import ListNotations.

(** The object files of T, and no directories. *)
Definition wiped (T : tree) : tree := {| t_objs := t_objs T; t_dir := fun _ => None |}.

(** A line of a recipe on two trees that agree where the line looks. *)
Definition looks_at (c : cmd) (T T' : tree) : Prop :=
  match c with
  | CC _ | RM _ => True
  | MKDIR v | AR v | RANLIB v | LINK v | AR_K v | RANLIB_K v | LINK_K v => t_dir T v = t_dir T' v
  end.
Lemma put_agree T T' v d v' : t_dir T v' = t_dir T' v' \/ v = v' -> t_dir (put_dir T v d) v' = t_dir (put_dir T' v d) v'.
Proof. intros H. cbn. destruct (variant_eq_dec v v'); [reflexivity|]. destruct H; [assumption|contradiction]. Qed.
Lemma exec_agree o c T T' : t_objs T = t_objs T' -> looks_at c T T' ->
  match exec_cmd o c T, exec_cmd o c T' with
  | None, None => True
  | Some U, Some U' => t_objs U = t_objs U' /\ (forall v, t_dir T v = t_dir T' v \/ c = RM v -> t_dir U v = t_dir U' v)
  | _, _ => False
  end.
Proof.
  intros HO HD. destruct c as [x|v|v|v|v|v|v|v|v]; cbn [exec_cmd looks_at] in *.
  - destruct (config_h (defines o)); [|exact I]. cbn [t_objs t_dir]. split; [rewrite HO; reflexivity|]. intros v [H|H]; [exact H|discriminate].
  - split; [exact HO|]. intros w H. apply put_agree. destruct H as [H|H]; [left; exact H|right; congruence].
  - rewrite HD. destruct (t_dir T' v); [exact I|]. split; [exact HO|]. intros w [H|H]; [apply put_agree; left; exact H|discriminate].
  - rewrite HD, HO. destruct (t_dir T' v) as [d|]; [|exact I]. destruct (archive_of (t_objs T') (lib_objs v o)); [|exact I].
    split; [exact HO|]. intros w [H|H]; [apply put_agree; left; exact H|discriminate].
  - rewrite HD. destruct (t_dir T' v) as [d|]; [|exact I]. destruct (d_lib d); [|exact I]. split; [exact HO|]. intros w [H|H]; [exact H|discriminate].
  - rewrite HD. destruct (t_dir T' v) as [d|]; [|exact I]. destruct (d_lib d); [|exact I]. destruct (link_with o TestKEM v a); [|exact I].
    split; [exact HO|]. intros w [H|H]; [apply put_agree; left; exact H|discriminate].
  - rewrite HD, HO. destruct (t_dir T' v) as [d|]; [|exact I]. destruct (archive_of (t_objs T') (kat_objs v o)); [|exact I].
    split; [exact HO|]. intros w [H|H]; [apply put_agree; left; exact H|discriminate].
  - rewrite HD. destruct (t_dir T' v) as [d|]; [|exact I]. destruct (d_kat d); [|exact I]. split; [exact HO|]. intros w [H|H]; [exact H|discriminate].
  - rewrite HD. destruct (t_dir T' v) as [d|]; [|exact I]. destruct (d_kat d); [|exact I]. destruct (link_with o TestKAT v a); [|exact I].
    split; [exact HO|]. intros w [H|H]; [apply put_agree; left; exact H|discriminate].
Qed.

(** Two runs that differ only in directories that are still to be removed. *)
Definition fresh_lib (p : progress) (v : variant) : Prop := p = Waiting \/ p = Running (recipe (JLib v)).
Record R (w w' : world) : Prop := {
  r_job : forall k, w_job w k = w_job w' k;
  r_stop : w_stop w = w_stop w';
  r_objs : t_objs (w_tree w) = t_objs (w_tree w');
  r_dir : forall v, t_dir (w_tree w) v = t_dir (w_tree w') v \/ fresh_lib (w_job w (JLib v)) v }.
Lemma R_begin T : R (begin T) (begin (wiped T)).
Proof. split; try reflexivity. intros v. right. left. reflexivity. Qed.
Lemma forallb_same {A} (f g : A -> bool) l : (forall x, f x = g x) -> forallb f l = forallb g l.
Proof. intros H. induction l as [|x l IH]; [reflexivity|]. cbn. rewrite H, IH. reflexivity. Qed.
Lemma set_same f g j p : (forall k, f k = g k) -> forall k : job, set_job f j p k = set_job g j p k.
Proof. intros H k. unfold set_job. destruct (job_eq_dec j k); [reflexivity|apply H]. Qed.
Section Resume.
Variables (o : options) (M : list string) (T0 : tree).
Hypothesis HM : config_h (defines o) = Some M.
Lemma R_turn w w' j : Inv o M T0 w -> R w w' -> (kat_job j = true -> libs_made w) -> R (turn o w j) (turn o w' j).
Proof.
  intros HI HR HK. pose proof HR as [RJ RS RO RD]. unfold turn. rewrite <- (RJ j).
  destruct (w_job w j) as [|[|c l]|] eqn:EJ; [|exact HR| |exact HR].
  - rewrite <- RS. rewrite <- (forallb_same (fun k => done (w_job w k)) (fun k => done (w_job w' k))) by (intros k; rewrite RJ; reflexivity).
    destruct (negb (w_stop w) && forallb (fun k => done (w_job w k)) (prereqs o j)); [|exact HR].
    split; cbn [w_tree w_job w_stop]; [apply set_same, RJ|reflexivity|exact RO|].
    intros v. destruct (RD v) as [E|E]; [left; exact E|right]. unfold fresh_lib in *.
    destruct (job_eq_dec j (JLib v)) as [->|N]; [rewrite set_eq; right; reflexivity|rewrite set_neq by exact N; exact E].
  - destruct (i_suf _ _ _ w HI j _ EJ) as (n & HS). pose proof (i_pre _ _ _ w HI j ltac:(congruence)) as HP.
    assert (D : forall v, w_job w (JLib v) = Running [] -> t_dir (w_tree w) v = t_dir (w_tree w') v).
    { intros v Hv. destruct (RD v) as [E|[E|E]]; [exact E|congruence|rewrite Hv in E; discriminate]. }
    assert (L : looks_at c (w_tree w) (w_tree w') /\ (forall v, j = JLib v -> fresh_lib (Running (c :: l)) v -> c = RM v)).
    { destruct j as [x|v0| |v0|].
      - destruct n as [|[|n]]; cbn in HS; [injection HS as -> ->|discriminate|rewrite ?skipn_nil in HS; discriminate].
        split; [exact I|discriminate].
      - split.
        + destruct (RD v0) as [E|E].
          * destruct n as [|[|[|[|n]]]]; cbn in HS; [injection HS as -> ->..|]; [exact I|exact E|exact E|exact E|rewrite ?skipn_nil in HS; discriminate].
          * rewrite EJ in E. destruct E as [E|E]; [discriminate|]. cbn [recipe] in E. injection E as -> ->. exact I.
        + intros v [= <-] [E|E]; [discriminate|]. cbn [recipe] in E. congruence.
      - split; [|discriminate]. assert (exists v0, c = LINK v0) as (v0 & ->).
        { destruct n as [|[|[|n]]]; cbn in HS; [injection HS as -> _; eauto..|]. rewrite ?skipn_nil in HS; discriminate. }
        apply D, HP. destruct v0; cbn; auto.
      - split; [|discriminate]. specialize (HK eq_refl).
        destruct n as [|[|n]]; cbn in HS; [injection HS as -> ->..|]; [apply D, HK|apply D, HK|rewrite ?skipn_nil in HS; discriminate].
      - split; [|discriminate]. specialize (HK eq_refl). assert (exists v0, c = LINK_K v0) as (v0 & ->).
        { destruct n as [|[|[|n]]]; cbn in HS; [injection HS as -> _; eauto..|]. rewrite ?skipn_nil in HS; discriminate. }
        apply D, HK. }
    destruct L as (L1 & L2). pose proof (exec_agree o c _ _ RO L1) as X.
    destruct (exec_cmd o c (w_tree w)) as [U|] eqn:EC, (exec_cmd o c (w_tree w')) as [U'|]; try contradiction.
    + destruct X as (XO & XD). split; cbn [w_tree w_job w_stop]; [apply set_same, RJ|exact RS|exact XO|].
      intros v. destruct (RD v) as [E|E]; [left; apply XD; left; exact E|].
      destruct (job_eq_dec j (JLib v)) as [->|N]; [left; apply XD; right; apply L2; [reflexivity|rewrite EJ in E; exact E]|].
      right. unfold fresh_lib. rewrite set_neq by exact N. exact E.
    + split; cbn [w_tree w_job w_stop]; [apply set_same, RJ|reflexivity|exact RO|].
      intros v. destruct (RD v) as [E|E]; [left; exact E|].
      destruct (job_eq_dec j (JLib v)) as [->|N].
      * exfalso. rewrite EJ in E. specialize (L2 v eq_refl E). subst c.
        discriminate.
      * right. unfold fresh_lib. rewrite set_neq by exact N. exact E.
Qed.
Lemma R_fold s w w' : Inv o M T0 w -> R w w' -> (libs_made w \/ Forall (fun j => kat_job j = false) s) ->
  R (fold_left (turn o) s w) (fold_left (turn o) s w').
Proof.
  revert w w'; induction s as [|j s IH]; intros w w' HI HR HK; [exact HR|]. cbn [fold_left]. apply IH.
  - apply Inv_turn; [exact HM|exact HI].
  - apply R_turn; [exact HI|exact HR|]. intros E. destruct HK as [HK|HK]; [exact HK|]. inversion HK; subst. congruence.
  - destruct HK as [HK|HK]; [left; intros v; apply turn_done, HK|right; inversion HK; assumption].
Qed.
(** The first step makes the libraries and touches no target of the KATs, the second is arbitrary: the directories that were there at
    the beginning leave no trace. *)
Lemma same_end s1 s2 : Forall (fun j => kat_job j = false) s1 -> libs_made (make_j o (wiped T0) s1) ->
  let w := make_j o T0 (s1 ++ s2) in let w' := make_j o (wiped T0) (s1 ++ s2) in
  (forall k, w_job w k = w_job w' k) /\ (forall v, t_dir (w_tree w) v = t_dir (w_tree w') v).
Proof.
  intros H1 H2. cbn zeta. unfold make_j in *. rewrite !fold_left_app.
  pose proof (R_fold s1 (begin T0) (begin (wiped T0)) (Inv_begin o M T0) (R_begin T0) (or_intror H1)) as R1.
  pose proof (fold_Inv o M T0 HM s1 _ (Inv_begin o M T0)) as I1.
  set (w := fold_left (turn o) s1 (begin T0)) in *. set (w' := fold_left (turn o) s1 (begin (wiped T0))) in *.
  assert (L : libs_made w) by (intros v; rewrite (r_job _ _ R1); apply H2).
  pose proof (R_fold s2 w w' I1 R1 (or_introl L)) as R2. split; [apply (r_job _ _ R2)|].
  intros v. destruct (r_dir _ _ R2 v) as [E|E]; [exact E|exfalso]. rewrite (fold_done o s2 w (JLib v) (L v)) in E. destruct E; discriminate.
Qed.
End Resume.

(** make without -j: its first step, and the rest. *)
Definition libs_first (o : options) : list job := (with_objs o (JLib V640) ++ with_objs o (JLib V976) ++ with_objs o (JLib V1344))%list.
Definition the_rest (o : options) : list job :=
  (whole JTests ++ with_objs o (JKLib V640) ++ with_objs o (JKLib V976) ++ with_objs o (JKLib V1344) ++ whole JKats)%list.
Lemma serial_split o : serial o = (libs_first o ++ the_rest o)%list.
Proof. rewrite serial_eq. unfold libs_first, the_rest. rewrite <- !app_assoc. reflexivity. Qed.
Lemma libs_first_kat o : Forall (fun j => kat_job j = false) (libs_first o).
Proof.
  assert (W : forall j, kat_job j = false -> Forall (fun j => kat_job j = false) (whole j)).
  { intros j Hj. apply Forall_forall. intros k Hk. apply repeat_spec in Hk. subst k. exact Hj. }
  assert (K : forall v, Forall (fun j => kat_job j = false) (with_objs o (JLib v))).
  { intros v. unfold with_objs. apply Forall_app. split; [|apply W; reflexivity]. cbn [prereqs].
    induction (lib_objs v o) as [|x l IH]; [constructor|]. cbn [map concat]. apply Forall_app. split; [apply W; reflexivity|exact IH]. }
  unfold libs_first. apply Forall_app; split; [apply K|apply Forall_app; split; apply K].
Qed.
Lemma libs_first_made o M T : config_h (defines o) = Some M -> cl T -> links_all o M T -> libs_made (make_j o T (libs_first o)).
Proof.
  intros HM HC HL. unfold make_j, libs_first. rewrite !fold_left_app.
  assert (G0 : good o M T (begin T)) by (split; [apply Inv_begin|split; [reflexivity|intros k; left; reflexivity]]).
  destruct (good_with_objs o M T HM (begin T) (JLib V640) _ HC HL G0 eq_refl) as (G1 & D1); [discriminate|]. set (w1 := fold_left _ _ (begin T)) in *.
  destruct (good_with_objs o M T HM w1 (JLib V976) _ HC HL G1 eq_refl) as (G2 & D2); [discriminate|].
  pose proof (fold_done o (with_objs o (JLib V976)) w1 _ D1) as D12. set (w2 := fold_left _ _ w1) in *.
  destruct (good_with_objs o M T HM w2 (JLib V1344) _ HC HL G2 eq_refl) as (G3 & D3); [discriminate|].
  pose proof (fold_done o (with_objs o (JLib V1344)) w2 _ D12) as D13.
  pose proof (fold_done o (with_objs o (JLib V1344)) w2 _ D2) as D23.
  intros []; assumption.
Qed.

(** make without -j, with whatever directories: it ends well and the programs come from the object files of F. *)
Lemma serial_any o M T : config_h (defines o) = Some M -> links_all o M T ->
  let w := make_j o T (serial o) in
  exit0 w = true /\
  forall p v, exists a, program_in (w_tree w) p v = Some a /\
    link_with o p v (match p with TestKEM => libA o M T v | TestKAT => katA o M T v end) = Some a.
Proof.
  intros HM HL. assert (HC : cl (wiped T)) by (intros v; reflexivity).
  assert (HL' : links_all o M (wiped T)) by exact HL.
  destruct (same_end o M T HM (libs_first o) (the_rest o) (libs_first_kat o) (libs_first_made o M (wiped T) HM HC HL')) as (EJ & ED).
  rewrite <- serial_split in EJ, ED. cbn zeta.
  pose proof (serial_ends o M (wiped T) HM HC HL') as E0.
  assert (E1 : exit0 (make_j o T (serial o)) = true).
  { rewrite <- E0. unfold exit0. apply forallb_same. intros k. rewrite EJ. reflexivity. }
  split; [exact E1|]. intros p v. unfold program_in. rewrite ED. fold (program_in (w_tree (make_j o (wiped T) (serial o))) p v).
  unfold exit0, goals in E0. cbn [forallb] in E0. rewrite !andb_true_iff, !done_eq in E0.
  destruct E0 as (_ & _ & _ & E0 & E2 & _).
  destruct p; [exact (make_tests o M (wiped T) HM (serial o) v E0)|exact (make_kats o M (wiped T) HM (serial o) v HC E2)].
Qed.

(** A run that is stopped leaves object files of before, and new ones. *)
Lemma objs_after o M T s x : config_h (defines o) = Some M ->
  t_objs (w_tree (make_j o T s)) x = t_objs T x \/ t_objs (w_tree (make_j o T s)) x = F M T x.
Proof. intros HM. exact (i_objs _ _ _ _ (Inv_make o M T HM s) x). Qed.
