(** Invariants of make -j (ParMake.v). *)
From Coq Require Import String List Bool Arith Lia.
From Verif Require Import Params Build BuildSpec BuildProofs ParMake.
Import ListNotations.

Lemma ar_r1_new a m : ~ In (fst m) (map fst a) -> ar_r1 a m = (a ++ [m])%list.
Proof.
  induction a as [|b a IH]; intros H; [reflexivity|]. cbn [ar_r1]. destruct (obj_eq_dec (fst b) (fst m)) as [E|E].
  - exfalso; apply H; left; exact E.
  - rewrite IH; [reflexivity|]. intros K; apply H; right; exact K.
Qed.
Lemma ar_r_new new a : NoDup (map fst (a ++ new)%list) -> ar_r a new = (a ++ new)%list.
Proof.
  unfold ar_r. revert a; induction new as [|m new IH]; intros a H; cbn [fold_left]; [rewrite app_nil_r; reflexivity|].
  assert (E : (a ++ m :: new = (a ++ [m]) ++ new)%list) by (rewrite <- app_assoc; reflexivity).
  rewrite ar_r1_new; [rewrite IH; [symmetry; exact E|rewrite <- E; exact H]|].
  rewrite map_app in H. cbn [map] in H. apply NoDup_remove_2 in H. intros K; apply H. apply in_app_iff; left; exact K.
Qed.
Lemma nodup_lib v o : NoDup (lib_objs v o).
Proof.
  rewrite (proj1 (objs_eq v o)). destruct (impl_named o), (gen_named o); repeat constructor; cbn; intuition discriminate.
Qed.
Lemma nodup_kat v o : NoDup (kat_objs v o).
Proof.
  rewrite (proj2 (objs_eq v o)). destruct (impl_named o), (gen_named o); repeat constructor; cbn; intuition discriminate.
Qed.

Section Run.
Variables (o : options) (M : list string) (T0 : tree).
Hypothesis HM : config_h (defines o) = Some M.
(** The object files once they are made. *)
Definition F : files := fun x => match t_objs T0 x with Some m => Some m | None => Some M end.
Definition libA (v : variant) : archive := map (fun x => (x, mac F x)) (lib_objs v o).
Definition katA (v : variant) : archive := map (fun x => (x, mac F x)) (kat_objs v o).
Definition cl : Prop := forall v, t_dir T0 v = None.

Lemma F_some x : exists m, F x = Some m.
Proof. unfold F. destruct (t_objs T0 x); eauto. Qed.
Lemma archive_F fs l : (forall x, In x l -> fs x = F x) -> archive_of fs l = Some (map (fun x => (x, mac F x)) l).
Proof.
  intros H. rewrite <- (archive_mac F l) by (intros; apply F_some).
  induction l as [|x l IH]; [reflexivity|]. cbn [archive_of]. rewrite (H x) by (left; reflexivity).
  rewrite IH by (intros; apply H; right; assumption). reflexivity.
Qed.
Lemma ar_fresh l : NoDup l -> ar_rcs None (map (fun x => (x, mac F x)) l) = map (fun x => (x, mac F x)) l.
Proof. intros H. unfold ar_rcs. rewrite ar_r_new; [reflexivity|]. cbn [app]. rewrite map_map. cbn [fst]. rewrite map_id. exact H. Qed.

Definition libinv (v : variant) (p : progress) (d : option dir) : Prop :=
  match p with
  | Waiting | Running (RM _ :: _) => cl -> d = None
  | Running (MKDIR _ :: _) => d = None
  | Running (AR _ :: _) => exists x, d = Some x /\ d_lib x = None
  | Running _ => exists x, d = Some x /\ d_lib x = Some (libA v)
  | Failed => True
  end.
Definition kinv (v : variant) (p : progress) (d : option dir) : Prop :=
  match p with
  | Waiting | Running (AR_K _ :: _) => forall x, d = Some x -> d_kat x = None
  | Running _ => exists x, d = Some x /\ d_kat x = Some (katA v)
  | Failed => True
  end.
Definition tinv (v : variant) (p : progress) (d : option dir) : Prop :=
  match p with
  | Running l => ~ In (LINK v) l -> exists x a, d = Some x /\ d_test x = Some a /\ link_with o TestKEM v (libA v) = Some a
  | _ => True
  end.
Definition qinv (v : variant) (p : progress) (d : option dir) : Prop :=
  match p with
  | Running l => ~ In (LINK_K v) l -> exists x a, d = Some x /\ d_katprog x = Some a /\ link_with o TestKAT v (katA v) = Some a
  | _ => True
  end.
Record vinv (v : variant) (pl pk pt pq : progress) (d : option dir) : Prop := {
  v_lib : libinv v pl d;
  v_kat : cl -> kinv v pk d;
  v_test : tinv v pt d;
  v_q : cl -> qinv v pq d;
  v_pt : pt <> Waiting -> pl = Running [];
  v_pq : pq <> Waiting -> pk = Running [] }.
Definition vw (w : world) (v : variant) : Prop :=
  vinv v (w_job w (JLib v)) (w_job w (JKLib v)) (w_job w JTests) (w_job w JKats) (t_dir (w_tree w) v).
Record Inv (w : world) : Prop := {
  i_objs : forall x, t_objs (w_tree w) x = t_objs T0 x \/ t_objs (w_tree w) x = F x;
  i_done : forall x, w_job w (JObj x) = Running [] -> t_objs (w_tree w) x = F x;
  i_pre : forall j, w_job w j <> Waiting -> forall k, In k (prereqs o j) -> w_job w k = Running [];
  i_suf : forall j l, w_job w j = Running l -> exists n, l = skipn n (recipe j);
  i_v : forall v, vw w v }.

Lemma Inv_begin : Inv (begin T0).
Proof.
  split; cbn.
  - intros x; left; reflexivity.
  - discriminate.
  - intros j H; destruct (H eq_refl).
  - discriminate.
  - intros v. split; cbn; try (intros; congruence); try (intros; exact I).
Qed.

Lemma set_eq f j p : set_job f j p j = p.
Proof. unfold set_job. destruct (job_eq_dec j j); [reflexivity|congruence]. Qed.
Lemma set_neq f j k p : j <> k -> set_job f j p k = f k.
Proof. unfold set_job. destruct (job_eq_dec j k); [congruence|reflexivity]. Qed.
Lemma done_eq p : done p = true <-> p = Running [].
Proof. destruct p as [|[|c l]|]; cbn; split; congruence. Qed.
(** No target is a prerequisite of itself. *)
Lemma pre_not_self j : ~ In j (prereqs o j).
Proof.
  destruct j; cbn [prereqs]; intros H.
  - exact H.
  - apply in_map_iff in H as (x & E & _). discriminate.
  - cbn in H; intuition discriminate.
  - apply in_map_iff in H as (x & E & _). discriminate.
  - cbn in H; intuition discriminate.
Qed.
(** The clauses about prerequisites and suffixes after a change of one target that is not made yet. *)
Lemma pre_step w j p : Inv w -> w_job w j <> Running [] ->
  (w_job w j = Waiting -> forall k, In k (prereqs o j) -> w_job w k = Running []) ->
  forall j', set_job (w_job w) j p j' <> Waiting -> forall k, In k (prereqs o j') -> set_job (w_job w) j p k = Running [].
Proof.
  intros HI Hj Hp j' H k Hk. assert (K : w_job w k = Running []).
  { unfold set_job in H. destruct (job_eq_dec j j') as [<-|E].
    - destruct (w_job w j) eqn:E; [apply Hp; [reflexivity|exact Hk]|apply (i_pre w HI j); [congruence|exact Hk]..].
    - apply (i_pre w HI j'); assumption. }
  rewrite set_neq; [exact K|]. intros ->. congruence.
Qed.

Lemma vinv_unmade v pl pk pt pq d : vinv v pl pk pt pq d -> pl <> Running [] -> pt = Waiting.
Proof. intros [_ _ _ _ H _] N. destruct pt; [reflexivity| |]; exfalso; apply N, H; discriminate. Qed.
Lemma vinv_unmade_k v pl pk pt pq d : vinv v pl pk pt pq d -> pk <> Running [] -> pq = Waiting.
Proof. intros [_ _ _ _ _ H] N. destruct pq; [reflexivity| |]; exfalso; apply N, H; discriminate. Qed.
(** A target that has failed: less is claimed. *)
Lemma fail_lib v pl pk pt pq d : vinv v pl pk pt pq d -> pl <> Running [] -> vinv v Failed pk pt pq d.
Proof. intros H N. pose proof (vinv_unmade _ _ _ _ _ _ H N) as ->. destruct H. split; try assumption; try exact I; congruence. Qed.
Lemma fail_kat v pl pk pt pq d : vinv v pl pk pt pq d -> pk <> Running [] -> vinv v pl Failed pt pq d.
Proof. intros H N. pose proof (vinv_unmade_k _ _ _ _ _ _ H N) as ->. destruct H. split; try assumption; try (intros _; exact I); congruence. Qed.
Lemma fail_test v pl pk pt pq d : vinv v pl pk pt pq d -> pt <> Waiting -> vinv v pl pk Failed pq d.
Proof. intros [A B C D E G] N. split; try assumption; try exact I. intros _; apply E, N. Qed.
Lemma fail_q v pl pk pt pq d : vinv v pl pk pt pq d -> pq <> Waiting -> vinv v pl pk pt Failed d.
Proof. intros [A B C D E G] N. split; try assumption; try (intros _; exact I). intros _; apply G, N. Qed.
(** A target that is begun. *)
Lemma start_lib v pk pt pq d : vinv v Waiting pk pt pq d -> vinv v (Running (recipe (JLib v))) pk pt pq d.
Proof.
  intros H. pose proof (vinv_unmade _ _ _ _ _ _ H ltac:(discriminate)) as ->. destruct H. split; try assumption. congruence.
Qed.
Lemma start_kat v pl pt pq d : vinv v pl Waiting pt pq d -> vinv v pl (Running (recipe (JKLib v))) pt pq d.
Proof.
  intros H. pose proof (vinv_unmade_k _ _ _ _ _ _ H ltac:(discriminate)) as ->. destruct H. split; try assumption. congruence.
Qed.
Lemma in_tests v : In (LINK v) (recipe JTests) /\ In (LINK_K v) (recipe JKats).
Proof. destruct v; cbn; auto. Qed.
Lemma start_test v pl pk pq d : vinv v pl pk Waiting pq d -> pl = Running [] -> vinv v pl pk (Running (recipe JTests)) pq d.
Proof. intros [A B C D E G] N. split; try assumption; [|intros _; exact N]. intros K; destruct (K (proj1 (in_tests v))). Qed.
Lemma start_q v pl pk pt d : vinv v pl pk pt Waiting d -> pk = Running [] -> vinv v pl pk pt (Running (recipe JKats)) d.
Proof. intros [A B C D E G] N. split; try assumption; [|intros _; exact N]. intros _ K; destruct (K (proj2 (in_tests v))). Qed.

(** One line of a recipe, for the variant it is about. *)
Lemma same_k v p x y : d_kat y = d_kat x -> kinv v p (Some x) -> kinv v p (Some y).
Proof.
  intros E. assert (A : (forall z, Some x = Some z -> d_kat z = None) -> forall z, Some y = Some z -> d_kat z = None).
  { intros H z [= <-]. rewrite E. apply H; reflexivity. }
  assert (B : (exists z, Some x = Some z /\ d_kat z = Some (katA v)) -> exists z, Some y = Some z /\ d_kat z = Some (katA v)).
  { intros (z & [= <-] & H). exists y. split; [reflexivity|congruence]. }
  destruct p as [|[|[] l]|]; cbn; auto.
Qed.
Lemma same_l v p x y : d_lib y = d_lib x -> libinv v p (Some x) -> libinv v p (Some y).
Proof.
  intros E. assert (A : (cl -> Some x = None) -> cl -> Some y = None) by (intros H C; discriminate (H C)).
  assert (B : forall r, (exists z, Some x = Some z /\ d_lib z = r) -> exists z, Some y = Some z /\ d_lib z = r).
  { intros r (z & [= <-] & H). exists y. split; [reflexivity|congruence]. }
  destruct p as [|[|[] l]|]; cbn; auto. discriminate.
Qed.
Lemma same_t v p x y : d_test y = d_test x -> tinv v p (Some x) -> tinv v p (Some y).
Proof.
  intros E. destruct p; cbn; auto. intros H N. destruct (H N) as (z & a & [= <-] & H1 & H2). exists y, a. rewrite E. auto.
Qed.
Lemma same_q v p x y : d_katprog y = d_katprog x -> qinv v p (Some x) -> qinv v p (Some y).
Proof.
  intros E. destruct p; cbn; auto. intros H N. destruct (H N) as (z & a & [= <-] & H1 & H2). exists y, a. rewrite E. auto.
Qed.
Lemma cmd_rm v pk pt pq d :
  vinv v (Running [RM v; MKDIR v; AR v; RANLIB v]) pk pt pq d -> vinv v (Running [MKDIR v; AR v; RANLIB v]) pk pt pq None.
Proof.
  intros H. pose proof (vinv_unmade _ _ _ _ _ _ H ltac:(discriminate)) as ->. destruct H as [A B C D E G]. cbn in A.
  split; try assumption; [reflexivity| | |congruence].
  - intros K. rewrite <- (A K). exact (B K).
  - intros K. rewrite <- (A K). exact (D K).
Qed.
Lemma cmd_mkdir v pk pt pq d :
  vinv v (Running [MKDIR v; AR v; RANLIB v]) pk pt pq d -> vinv v (Running [AR v; RANLIB v]) pk pt pq (Some empty_dir).
Proof.
  intros H. pose proof (vinv_unmade _ _ _ _ _ _ H ltac:(discriminate)) as ->. destruct H as [A B C D E G]. cbn in A. subst d.
  split; try assumption; [exists empty_dir; split; reflexivity| | |congruence].
  - intros K. specialize (B K).
    assert (W : forall x, Some empty_dir = Some x -> d_kat x = None) by (intros x [= <-]; reflexivity).
    destruct pk as [|[|[] l]|]; cbn in B |- *; try exact W; try exact I; destruct B as (? & B & _); discriminate.
  - intros K. specialize (D K). destruct pq as [|l|]; cbn in D |- *; try exact I. intros N. destruct (D N) as (x & a & Z & _). discriminate.
Qed.
Lemma cmd_ar v pk pt pq x y :
  vinv v (Running [AR v; RANLIB v]) pk pt pq (Some x) ->
  d_lib y = Some (ar_rcs (d_lib x) (libA v)) -> d_kat y = d_kat x -> d_katprog y = d_katprog x ->
  vinv v (Running [RANLIB v]) pk pt pq (Some y).
Proof.
  intros H Y1 Y2 Y3. pose proof (vinv_unmade _ _ _ _ _ _ H ltac:(discriminate)) as ->. destruct H as [A B C D E G].
  cbn in A. destruct A as (z & [= <-] & Z). rewrite Z in Y1. unfold libA in Y1. rewrite ar_fresh in Y1 by apply nodup_lib.
  split; try assumption.
  - exists y. split; [reflexivity|exact Y1].
  - intros K. eapply same_k; [exact Y2|exact (B K)].
  - intros K. eapply same_q; [exact Y3|exact (D K)].
  - congruence.
Qed.
Lemma cmd_ranlib v pk pt pq d : vinv v (Running [RANLIB v]) pk pt pq d -> vinv v (Running []) pk pt pq d.
Proof.
  intros H. pose proof (vinv_unmade _ _ _ _ _ _ H ltac:(discriminate)) as ->. destruct H as [A B C D E G]. split; try assumption. congruence.
Qed.
Lemma cmd_ar_k v pl pt pq x y :
  vinv v pl (Running [AR_K v; RANLIB_K v]) pt pq (Some x) ->
  d_kat y = Some (ar_rcs (d_kat x) (katA v)) -> d_lib y = d_lib x -> d_test y = d_test x ->
  vinv v pl (Running [RANLIB_K v]) pt pq (Some y).
Proof.
  intros H Y1 Y2 Y3. pose proof (vinv_unmade_k _ _ _ _ _ _ H ltac:(discriminate)) as ->. destruct H as [A B C D E G].
  split; try assumption.
  - eapply same_l; [exact Y2|exact A].
  - intros K. specialize (B K). cbn in B. rewrite (B x eq_refl) in Y1. unfold katA in Y1. rewrite ar_fresh in Y1 by apply nodup_kat.
    exists y. split; [reflexivity|exact Y1].
  - eapply same_t; [exact Y3|exact C].
  - congruence.
Qed.
Lemma cmd_ranlib_k v pl pt pq d : vinv v pl (Running [RANLIB_K v]) pt pq d -> vinv v pl (Running []) pt pq d.
Proof.
  intros H. pose proof (vinv_unmade_k _ _ _ _ _ _ H ltac:(discriminate)) as ->. destruct H as [A B C D E G]. split; try assumption. congruence.
Qed.
(** Linking, for the variant that is linked and for the others. *)
Lemma cmd_link v pl pk l pq x y a a' :
  vinv v pl pk (Running (LINK v :: l)) pq (Some x) -> d_lib x = Some a -> link_with o TestKEM v a = Some a' ->
  d_test y = Some a' -> d_lib y = d_lib x -> d_kat y = d_kat x -> d_katprog y = d_katprog x ->
  vinv v pl pk (Running l) pq (Some y).
Proof.
  intros [A B C D E G] X1 X2 Y1 Y2 Y3 Y4. split.
  - eapply same_l; [exact Y2|exact A].
  - intros K. eapply same_k; [exact Y3|exact (B K)].
  - intros _. exists y, a'. split; [reflexivity|]. split; [exact Y1|].
    rewrite (E ltac:(discriminate)) in A. cbn [libinv] in A. destruct A as (z & [= <-] & Z). congruence.
  - intros K. eapply same_q; [exact Y4|exact (D K)].
  - intros _. apply E. discriminate.
  - exact G.
Qed.
Lemma cmd_link_other v v' pl pk l pq d : v <> v' ->
  vinv v pl pk (Running (LINK v' :: l)) pq d -> vinv v pl pk (Running l) pq d.
Proof.
  intros N [A B C D E G]. split; try assumption; [|intros _; apply E; discriminate].
  intros K. apply C. intros [Z|Z]; [congruence|exact (K Z)].
Qed.
Lemma cmd_link_k v pl pk pt l x y a a' :
  vinv v pl pk pt (Running (LINK_K v :: l)) (Some x) -> d_kat x = Some a -> link_with o TestKAT v a = Some a' ->
  d_katprog y = Some a' -> d_lib y = d_lib x -> d_kat y = d_kat x -> d_test y = d_test x ->
  vinv v pl pk pt (Running l) (Some y).
Proof.
  intros [A B C D E G] X1 X2 Y1 Y2 Y3 Y4. split.
  - eapply same_l; [exact Y2|exact A].
  - intros K. eapply same_k; [exact Y3|exact (B K)].
  - eapply same_t; [exact Y4|exact C].
  - intros K _. exists y, a'. split; [reflexivity|]. split; [exact Y1|].
    specialize (B K). rewrite (G ltac:(discriminate)) in B. cbn [kinv] in B. destruct B as (z & [= <-] & Z). congruence.
  - exact E.
  - intros _. apply G. discriminate.
Qed.
Lemma cmd_link_k_other v v' pl pk pt l d : v <> v' ->
  vinv v pl pk pt (Running (LINK_K v' :: l)) d -> vinv v pl pk pt (Running l) d.
Proof.
  intros N [A B C D E G]. split; try assumption; [|intros _; apply G; discriminate].
  intros Q K. apply (D Q). intros [Z|Z]; [congruence|exact (K Z)].
Qed.

(** A turn that does not touch the files. *)
Lemma Inv_prog w j p b : Inv w -> w_job w j <> Running [] ->
  (w_job w j = Waiting -> forall k, In k (prereqs o j) -> w_job w k = Running []) ->
  (forall l, p = Running l -> exists n, l = skipn n (recipe j)) ->
  (forall x, j = JObj x -> p <> Running []) ->
  (forall v, vw {| w_tree := w_tree w; w_job := set_job (w_job w) j p; w_stop := b |} v) ->
  Inv {| w_tree := w_tree w; w_job := set_job (w_job w) j p; w_stop := b |}.
Proof.
  intros HI Hj Hp Hs Ho Hv. split; cbn.
  - apply (i_objs w HI).
  - intros x Hx. destruct (job_eq_dec j (JObj x)) as [->|N]; [rewrite set_eq in Hx; destruct (Ho x eq_refl Hx)|].
    rewrite set_neq in Hx by exact N. apply (i_done w HI); exact Hx.
  - apply pre_step; assumption.
  - intros k l Hk. destruct (job_eq_dec j k) as [<-|N]; [rewrite set_eq in Hk; apply Hs; exact Hk|].
    rewrite set_neq in Hk by exact N. apply (i_suf w HI); exact Hk.
  - exact Hv.
Qed.
(** A turn that changes the directories, and not the object files. *)
Lemma Inv_dirs w j l T b : Inv w -> w_job w j <> Running [] -> w_job w j <> Waiting ->
  (exists n, l = skipn n (recipe j)) -> (forall x, j <> JObj x) -> t_objs T = t_objs (w_tree w) ->
  (forall v, vw {| w_tree := T; w_job := set_job (w_job w) j (Running l); w_stop := b |} v) ->
  Inv {| w_tree := T; w_job := set_job (w_job w) j (Running l); w_stop := b |}.
Proof.
  intros HI Hj Hw Hs Ho HT Hv. split; cbn.
  - rewrite HT. apply (i_objs w HI).
  - intros x Hx. rewrite set_neq in Hx by apply Ho. rewrite HT. apply (i_done w HI); exact Hx.
  - apply pre_step; [assumption..|]. intros E; destruct (Hw E).
  - intros k l' Hk. destruct (job_eq_dec j k) as [<-|N]; [rewrite set_eq in Hk; injection Hk as <-; exact Hs|].
    rewrite set_neq in Hk by exact N. apply (i_suf w HI); exact Hk.
  - exact Hv.
Qed.
Lemma vw_other w j p T b v : vw w v -> j <> JLib v -> j <> JKLib v -> j <> JTests -> j <> JKats ->
  t_dir T v = t_dir (w_tree w) v -> vw {| w_tree := T; w_job := set_job (w_job w) j p; w_stop := b |} v.
Proof. intros H N1 N2 N3 N4 E. unfold vw in *. cbn. rewrite !set_neq by assumption. rewrite E. exact H. Qed.
Lemma put_same T v d : t_dir (put_dir T v d) v = d.
Proof. cbn. destruct (variant_eq_dec v v); [reflexivity|congruence]. Qed.
Lemma put_other T v v' d : v <> v' -> t_dir (put_dir T v d) v' = t_dir T v'.
Proof. intros N. cbn. destruct (variant_eq_dec v v'); [congruence|reflexivity]. Qed.
Lemma skipn_cons {A} n (l : list A) c r : c :: r = skipn n l -> exists m, r = skipn m l.
Proof.
  revert l; induction n as [|n IH]; intros l H.
  - destruct l; cbn in H; [discriminate|]. injection H as -> ->. exists 1. reflexivity.
  - destruct l as [|a l]; cbn in H; [discriminate|]. destruct (IH l H) as (m & E). exists (Datatypes.S m). exact E.
Qed.
Lemma objs_ready w (l : list obj) : Inv w ->
  (forall x, In x l -> w_job w (JObj x) = Running []) -> archive_of (t_objs (w_tree w)) l = Some (map (fun x => (x, mac F x)) l).
Proof. intros HI H. apply archive_F. intros x Hx. apply (i_done w HI), H, Hx. Qed.

Lemma Inv_turn w j : Inv w -> Inv (turn o w j).
Proof.
  intros HI. unfold turn. destruct (w_job w j) as [|[|c l]|] eqn:EJ; [|exact HI| |exact HI].
  - (* begun *)
    destruct (negb (w_stop w) && forallb (fun k => done (w_job w k)) (prereqs o j)) eqn:EP; [|exact HI].
    apply andb_true_iff in EP as (_ & EP). rewrite forallb_forall in EP.
    assert (HP : forall k, In k (prereqs o j) -> w_job w k = Running []) by (intros k Hk; apply done_eq, EP, Hk).
    apply Inv_prog; [exact HI|congruence|intros _; exact HP|intros l [= <-]; exists 0; reflexivity|destruct j; discriminate|].
    intros v. pose proof (i_v w HI v) as HV. destruct j as [x|v0| |v0|].
    + apply vw_other; [exact HV|discriminate..|reflexivity].
    + destruct (variant_eq_dec v0 v) as [->|N]; [|apply vw_other; [exact HV|congruence|discriminate..|reflexivity]].
      unfold vw in *. cbn [w_job w_tree]. rewrite set_eq, !set_neq by discriminate. rewrite EJ in HV. apply start_lib, HV.
    + unfold vw in *. cbn [w_job w_tree]. rewrite set_eq, !set_neq by discriminate. rewrite EJ in HV.
      apply start_test; [exact HV|]. apply HP. destruct v; cbn; auto.
    + destruct (variant_eq_dec v0 v) as [->|N]; [|apply vw_other; [exact HV|discriminate|congruence|discriminate..|reflexivity]].
      unfold vw in *. cbn [w_job w_tree]. rewrite set_eq, !set_neq by discriminate. rewrite EJ in HV. apply start_kat, HV.
    + unfold vw in *. cbn [w_job w_tree]. rewrite set_eq, !set_neq by discriminate. rewrite EJ in HV.
      apply start_q; [exact HV|]. apply HP. destruct v; cbn; auto.
  - destruct (i_suf w HI j _ EJ) as (n & HS).
    pose proof (i_pre w HI j ltac:(congruence)) as HP.
    destruct (exec_cmd o c (w_tree w)) as [T|] eqn:EC.
    + (* a line that succeeds *)
      pose proof (skipn_cons _ _ _ _ HS) as HS'.
      destruct j as [x|v0| |v0|].
      * (* an object file *)
        assert (c = CC x /\ l = []) as (-> & ->).
        { destruct n as [|[|n]]; cbn in HS; [injection HS as -> ->; split; reflexivity|discriminate|]. rewrite ?skipn_nil in HS; discriminate. }
        cbn in EC. rewrite HM in EC. injection EC as <-.
        assert (K : forall y, compile1 M (t_objs (w_tree w)) x y = t_objs (w_tree w) y \/ (compile1 M (t_objs (w_tree w)) x y = Some M /\ t_objs (w_tree w) y = None)).
        { intros y. unfold compile1. destruct (t_objs (w_tree w) y); [left; reflexivity|]. destruct (obj_eq_dec x y); auto. }
        assert (A : forall y, compile1 M (t_objs (w_tree w)) x y = t_objs T0 y \/ compile1 M (t_objs (w_tree w)) x y = F y).
        { intros y. destruct (K y) as [E|(E & E0)]; rewrite E; [apply (i_objs w HI)|]. right.
          destruct (i_objs w HI y) as [Z|Z]; rewrite E0 in Z; unfold F in *; destruct (t_objs T0 y); congruence. }
        split; cbn [w_tree w_job t_objs t_dir].
        -- exact A.
        -- intros y Hy. destruct (obj_eq_dec x y) as [->|N].
           ++ unfold compile1. destruct (t_objs (w_tree w) y) eqn:Z.
              ** destruct (i_objs w HI y) as [Q|Q]; rewrite Z in Q; unfold F in *; [rewrite <- Q; reflexivity|congruence].
              ** destruct (obj_eq_dec y y); [|congruence]. destruct (i_objs w HI y) as [Q|Q]; rewrite Z in Q; unfold F in *; [rewrite <- Q; reflexivity|destruct (t_objs T0 y); discriminate].
           ++ rewrite set_neq in Hy by congruence. pose proof (i_done w HI y Hy) as Z.
              destruct (K y) as [E|(E & E0)]; rewrite E; [exact Z|]. destruct (F_some y) as (m & Hm). congruence.
        -- apply pre_step; [exact HI|congruence|congruence].
        -- intros k l' Hk. destruct (job_eq_dec (JObj x) k) as [<-|N]; [rewrite set_eq in Hk; injection Hk as <-; exact HS'|].
           rewrite set_neq in Hk by exact N. apply (i_suf w HI); exact Hk.
        -- intros v. apply vw_other; [apply (i_v w HI)|discriminate..|reflexivity].
      * (* a library *)
        assert (AV : archive_of (t_objs (w_tree w)) (lib_objs v0 o) = Some (libA v0)).
        { apply objs_ready; [exact HI|]. intros x Hx. apply HP. cbn [prereqs]. apply in_map, Hx. }
        assert (OT : forall d, t_objs (put_dir (w_tree w) v0 d) = t_objs (w_tree w)) by reflexivity.
        pose proof (i_v w HI v0) as HV. unfold vw in HV. rewrite EJ in HV.
        assert (G : forall d', (T = put_dir (w_tree w) v0 d' \/ (T = w_tree w /\ d' = t_dir (w_tree w) v0)) ->
          vinv v0 (Running l) (w_job w (JKLib v0)) (w_job w JTests) (w_job w JKats) d' ->
          Inv {| w_tree := T; w_job := set_job (w_job w) (JLib v0) (Running l); w_stop := w_stop w |}).
        { intros d' HT HV'. apply Inv_dirs; [exact HI|congruence|congruence|exact HS'|discriminate|destruct HT as [->|(-> & _)]; reflexivity|].
          intros v. destruct (variant_eq_dec v0 v) as [->|N].
          - unfold vw. cbn [w_job w_tree]. rewrite set_eq, !set_neq by discriminate.
            replace (t_dir T v) with d' by (destruct HT as [->|(-> & ->)]; [symmetry; apply put_same|reflexivity]). exact HV'.
          - apply vw_other; [apply (i_v w HI)|congruence|discriminate..|].
            destruct HT as [->|(-> & _)]; [apply put_other; exact N|reflexivity]. }
        destruct n as [|[|[|[|n]]]]; cbn in HS; [injection HS as -> ->..|]; [| | | |rewrite ?skipn_nil in HS; discriminate].
        -- cbn in EC. injection EC as <-. apply (G None); [left; reflexivity|]. apply cmd_rm in HV. exact HV.
        -- cbn [exec_cmd] in EC. destruct (t_dir (w_tree w) v0); [discriminate|]. injection EC as <-.
           apply (G (Some empty_dir)); [left; reflexivity|]. apply cmd_mkdir in HV. exact HV.
        -- cbn [exec_cmd] in EC. destruct (t_dir (w_tree w) v0) as [d|] eqn:ED; [|discriminate]. rewrite AV in EC. injection EC as <-.
           eapply G; [left; reflexivity|]. eapply cmd_ar; [exact HV|reflexivity..].
        -- cbn [exec_cmd] in EC. destruct (t_dir (w_tree w) v0) as [d|] eqn:ED; [|discriminate]. destruct (d_lib d); [|discriminate]. injection EC as <-.
           apply (G (Some d)); [right; split; [reflexivity|congruence]|]. apply cmd_ranlib in HV. exact HV.
      * (* the test programs *)
        assert (exists v0, c = LINK v0) as (v0 & ->).
        { destruct n as [|[|[|n]]]; cbn in HS; [injection HS as -> _; eauto..|]. rewrite ?skipn_nil in HS; discriminate. }
        cbn [exec_cmd] in EC. destruct (t_dir (w_tree w) v0) as [d|] eqn:ED; [|discriminate].
        destruct (d_lib d) as [a|] eqn:EL; [|discriminate]. destruct (link_with o TestKEM v0 a) as [a'|] eqn:EK; [|discriminate]. injection EC as <-.
        apply Inv_dirs; [exact HI|congruence|congruence|exact HS'|discriminate|reflexivity|].
        intros v. pose proof (i_v w HI v) as HV. unfold vw in *. cbn [w_job w_tree]. rewrite set_eq, !set_neq by discriminate. rewrite EJ in HV.
        destruct (variant_eq_dec v0 v) as [->|N].
        -- rewrite put_same. rewrite ED in HV. eapply cmd_link; [exact HV|exact EL|exact EK|reflexivity|cbn; congruence|reflexivity|reflexivity].
        -- rewrite put_other by exact N. eapply cmd_link_other; [|exact HV]. congruence.
      * (* a library for the KATs *)
        assert (AV : archive_of (t_objs (w_tree w)) (kat_objs v0 o) = Some (katA v0)).
        { apply objs_ready; [exact HI|]. intros x Hx. apply HP. cbn [prereqs]. apply in_map, Hx. }
        pose proof (i_v w HI v0) as HV. unfold vw in HV. rewrite EJ in HV.
        assert (G : forall d', (T = put_dir (w_tree w) v0 d' \/ (T = w_tree w /\ d' = t_dir (w_tree w) v0)) ->
          vinv v0 (w_job w (JLib v0)) (Running l) (w_job w JTests) (w_job w JKats) d' ->
          Inv {| w_tree := T; w_job := set_job (w_job w) (JKLib v0) (Running l); w_stop := w_stop w |}).
        { intros d' HT HV'. apply Inv_dirs; [exact HI|congruence|congruence|exact HS'|discriminate|destruct HT as [->|(-> & _)]; reflexivity|].
          intros v. destruct (variant_eq_dec v0 v) as [->|N].
          - unfold vw. cbn [w_job w_tree]. rewrite set_eq, !set_neq by discriminate.
            replace (t_dir T v) with d' by (destruct HT as [->|(-> & ->)]; [symmetry; apply put_same|reflexivity]). exact HV'.
          - apply vw_other; [apply (i_v w HI)|discriminate|congruence|discriminate..|].
            destruct HT as [->|(-> & _)]; [apply put_other; exact N|reflexivity]. }
        destruct n as [|[|n]]; cbn in HS; [injection HS as -> ->..|]; [| |rewrite ?skipn_nil in HS; discriminate].
        -- cbn [exec_cmd] in EC. destruct (t_dir (w_tree w) v0) as [d|] eqn:ED; [|discriminate]. rewrite AV in EC. injection EC as <-.
           eapply G; [left; reflexivity|]. eapply cmd_ar_k; [exact HV|reflexivity..].
        -- cbn [exec_cmd] in EC. destruct (t_dir (w_tree w) v0) as [d|] eqn:ED; [|discriminate]. destruct (d_kat d); [|discriminate]. injection EC as <-.
           apply (G (Some d)); [right; split; [reflexivity|congruence]|]. apply cmd_ranlib_k in HV. exact HV.
      * (* the KAT programs *)
        assert (exists v0, c = LINK_K v0) as (v0 & ->).
        { destruct n as [|[|[|n]]]; cbn in HS; [injection HS as -> _; eauto..|]. rewrite ?skipn_nil in HS; discriminate. }
        cbn [exec_cmd] in EC. destruct (t_dir (w_tree w) v0) as [d|] eqn:ED; [|discriminate].
        destruct (d_kat d) as [a|] eqn:EL; [|discriminate]. destruct (link_with o TestKAT v0 a) as [a'|] eqn:EK; [|discriminate]. injection EC as <-.
        apply Inv_dirs; [exact HI|congruence|congruence|exact HS'|discriminate|reflexivity|].
        intros v. pose proof (i_v w HI v) as HV. unfold vw in *. cbn [w_job w_tree]. rewrite set_eq, !set_neq by discriminate. rewrite EJ in HV.
        destruct (variant_eq_dec v0 v) as [->|N].
        -- rewrite put_same. rewrite ED in HV. eapply cmd_link_k; [exact HV|exact EL|exact EK|reflexivity|reflexivity|cbn; congruence|reflexivity].
        -- rewrite put_other by exact N. eapply cmd_link_k_other; [|exact HV]. congruence.
    + (* a line that fails *)
      apply Inv_prog; [exact HI|congruence|congruence|discriminate|discriminate|].
      intros v. pose proof (i_v w HI v) as HV. destruct j as [x|v0| |v0|].
      * apply vw_other; [exact HV|discriminate..|reflexivity].
      * destruct (variant_eq_dec v0 v) as [->|N]; [|apply vw_other; [exact HV|congruence|discriminate..|reflexivity]].
        unfold vw in *. cbn [w_job w_tree]. rewrite set_eq, !set_neq by discriminate. eapply fail_lib; [exact HV|congruence].
      * unfold vw in *. cbn [w_job w_tree]. rewrite set_eq, !set_neq by discriminate. eapply fail_test; [exact HV|congruence].
      * destruct (variant_eq_dec v0 v) as [->|N]; [|apply vw_other; [exact HV|discriminate|congruence|discriminate..|reflexivity]].
        unfold vw in *. cbn [w_job w_tree]. rewrite set_eq, !set_neq by discriminate. eapply fail_kat; [exact HV|congruence].
      * unfold vw in *. cbn [w_job w_tree]. rewrite set_eq, !set_neq by discriminate. eapply fail_q; [exact HV|congruence].
Qed.
Lemma Inv_make sched : Inv (make_j o T0 sched).
Proof.
  unfold make_j. assert (K : forall w, Inv w -> Inv (fold_left (turn o) sched w)).
  { induction sched as [|j s IH]; intros w H; [exact H|]. cbn. apply IH, Inv_turn, H. }
  apply K, Inv_begin.
Qed.
(** What a run leaves that ends well. *)
Lemma make_tests sched v : w_job (make_j o T0 sched) JTests = Running [] ->
  exists a, program_in (w_tree (make_j o T0 sched)) TestKEM v = Some a /\ link_with o TestKEM v (libA v) = Some a.
Proof.
  intros H. pose proof (v_test _ _ _ _ _ _ (i_v _ (Inv_make sched) v)) as K. rewrite H in K. cbn in K.
  destruct (K (fun f => f)) as (x & a & E & E1 & E2). exists a. split; [|exact E2]. unfold program_in. rewrite E. exact E1.
Qed.
Lemma make_kats sched v : cl -> w_job (make_j o T0 sched) JKats = Running [] ->
  exists a, program_in (w_tree (make_j o T0 sched)) TestKAT v = Some a /\ link_with o TestKAT v (katA v) = Some a.
Proof.
  intros C H. pose proof (v_q _ _ _ _ _ _ (i_v _ (Inv_make sched) v) C) as K. rewrite H in K. cbn in K.
  destruct (K (fun f => f)) as (x & a & E & E1 & E2). exists a. split; [|exact E2]. unfold program_in. rewrite E. exact E1.
Qed.

(** * Runs that cannot fail *)

Definition links_all : Prop := forall v, link_with o TestKEM v (libA v) <> None /\ link_with o TestKAT v (katA v) <> None.
Definition kat_job (j : job) : bool := match j with JKLib _ | JKats => true | _ => false end.
Definition libs_made (w : world) : Prop := forall v, w_job w (JLib v) = Running [].
Lemma line_ok w j c l : Inv w -> cl -> links_all -> w_job w j = Running (c :: l) -> (kat_job j = true -> libs_made w) ->
  exec_cmd o c (w_tree w) <> None.
Proof.
  intros HI HC HL EJ HK. destruct (i_suf w HI j _ EJ) as (n & HS). pose proof (i_pre w HI j ltac:(congruence)) as HP.
  destruct j as [x|v0| |v0|]; cbn [kat_job] in HK.
  - destruct n as [|[|n]]; cbn in HS; [injection HS as -> ->|discriminate|rewrite ?skipn_nil in HS; discriminate].
    cbn. rewrite HM. discriminate.
  - assert (AV : archive_of (t_objs (w_tree w)) (lib_objs v0 o) = Some (libA v0)).
    { apply objs_ready; [exact HI|]. intros x Hx. apply HP. cbn [prereqs]. apply in_map, Hx. }
    pose proof (v_lib _ _ _ _ _ _ (i_v w HI v0)) as HV. rewrite EJ in HV.
    destruct n as [|[|[|[|n]]]]; cbn in HS; [injection HS as -> ->..|]; [| | | |rewrite ?skipn_nil in HS; discriminate]; cbn [libinv] in HV; cbn [exec_cmd].
    + discriminate.
    + rewrite HV. discriminate.
    + destruct HV as (x & -> & _). rewrite AV. discriminate.
    + destruct HV as (x & -> & ->). discriminate.
  - assert (exists v0, c = LINK v0) as (v0 & ->).
    { destruct n as [|[|[|n]]]; cbn in HS; [injection HS as -> _; eauto..|]. rewrite ?skipn_nil in HS; discriminate. }
    pose proof (v_lib _ _ _ _ _ _ (i_v w HI v0)) as HV. rewrite (HP (JLib v0)) in HV by (destruct v0; cbn; auto).
    cbn [libinv] in HV. destruct HV as (x & E1 & E2). cbn [exec_cmd]. rewrite E1, E2.
    pose proof (proj1 (HL v0)). destruct (link_with o TestKEM v0 (libA v0)); [discriminate|congruence].
  - assert (AV : archive_of (t_objs (w_tree w)) (kat_objs v0 o) = Some (katA v0)).
    { apply objs_ready; [exact HI|]. intros x Hx. apply HP. cbn [prereqs]. apply in_map, Hx. }
    pose proof (v_lib _ _ _ _ _ _ (i_v w HI v0)) as HV. rewrite (HK eq_refl v0) in HV. cbn [libinv] in HV. destruct HV as (x & E1 & _).
    pose proof (v_kat _ _ _ _ _ _ (i_v w HI v0) HC) as HV. rewrite EJ in HV.
    destruct n as [|[|n]]; cbn in HS; [injection HS as -> ->..|]; [| |rewrite ?skipn_nil in HS; discriminate]; cbn [kinv] in HV; cbn [exec_cmd].
    + rewrite E1, AV. discriminate.
    + destruct HV as (y & -> & ->). discriminate.
  - assert (exists v0, c = LINK_K v0) as (v0 & ->).
    { destruct n as [|[|[|n]]]; cbn in HS; [injection HS as -> _; eauto..|]. rewrite ?skipn_nil in HS; discriminate. }
    pose proof (v_kat _ _ _ _ _ _ (i_v w HI v0) HC) as HV. rewrite (HP (JKLib v0)) in HV by (destruct v0; cbn; auto).
    cbn [kinv] in HV. destruct HV as (x & E1 & E2). cbn [exec_cmd]. rewrite E1, E2.
    pose proof (proj2 (HL v0)). destruct (link_with o TestKAT v0 (katA v0)); [discriminate|congruence].
Qed.
(** What is made stays made. *)
Lemma turn_done w j k : w_job w k = Running [] -> w_job (turn o w j) k = Running [].
Proof.
  intros H. unfold turn. destruct (w_job w j) as [|[|c l]|] eqn:EJ; [|exact H| |exact H].
  - destruct (_ && _); [|exact H]. cbn. rewrite set_neq; [exact H|congruence].
  - destruct (exec_cmd o c (w_tree w)); cbn; (rewrite set_neq; [exact H|congruence]).
Qed.
Lemma turn_ok w j : Inv w -> cl -> links_all -> w_stop w = false -> (kat_job j = true -> libs_made w) -> w_stop (turn o w j) = false.
Proof.
  intros HI HC HL HS HK. unfold turn. destruct (w_job w j) as [|[|c l]|] eqn:EJ; try exact HS.
  - destruct (_ && _); exact HS.
  - pose proof (line_ok w j c l HI HC HL EJ HK). destruct (exec_cmd o c (w_tree w)); [exact HS|congruence].
Qed.
(** A failed target stays failed. *)
Lemma turn_failed w j k : w_job w k = Failed -> w_job (turn o w j) k = Failed.
Proof.
  intros H. unfold turn. destruct (w_job w j) as [|[|c l]|] eqn:EJ; [|exact H| |exact H].
  - destruct (_ && _); [|exact H]. cbn. rewrite set_neq; [exact H|congruence].
  - destruct (exec_cmd o c (w_tree w)); cbn; (rewrite set_neq; [exact H|congruence]).
Qed.
Lemma fold_Inv s w : Inv w -> Inv (fold_left (turn o) s w).
Proof. revert w; induction s as [|j s IH]; intros w H; [exact H|]. cbn. apply IH, Inv_turn, H. Qed.
Lemma fold_done s w k : w_job w k = Running [] -> w_job (fold_left (turn o) s w) k = Running [].
Proof. revert w; induction s as [|j s IH]; intros w H; [exact H|]. cbn. apply IH, turn_done, H. Qed.
Lemma fold_failed s w k : w_job w k = Failed -> w_job (fold_left (turn o) s w) k = Failed.
Proof. revert w; induction s as [|j s IH]; intros w H; [exact H|]. cbn. apply IH, turn_failed, H. Qed.
Lemma fold_ok s w : Inv w -> cl -> links_all -> w_stop w = false -> (libs_made w \/ Forall (fun j => kat_job j = false) s) ->
  w_stop (fold_left (turn o) s w) = false.
Proof.
  intros HI HC HL. revert w HI; induction s as [|j s IH]; intros w HI HS HK; [exact HS|]. cbn. apply IH.
  - apply Inv_turn, HI.
  - apply turn_ok; [assumption..|]. intros E. destruct HK as [HK|HK]; [exact HK|]. inversion HK; subst. congruence.
  - destruct HK as [HK|HK]; [left; intros v; apply turn_done, HK|right; inversion HK; assumption].
Qed.

(** A target that has all the turns it needs. *)
Definition whole (j : job) : list job := repeat j (Datatypes.S (List.length (recipe j))).
Lemma run_lines l w j : Inv w -> cl -> links_all -> w_stop w = false -> (kat_job j = true -> libs_made w) -> w_job w j = Running l ->
  w_job (fold_left (turn o) (repeat j (List.length l)) w) j = Running [].
Proof.
  intros HI HC HL. revert w HI; induction l as [|c l IH]; intros w HI HS HK EJ; [exact EJ|]. cbn [List.length repeat fold_left].
  pose proof (line_ok w j c l HI HC HL EJ HK) as K. pose proof (turn_ok w j HI HC HL HS HK) as K'.
  apply IH; [apply Inv_turn, HI|exact K'|intros E v; apply turn_done; apply (HK E)|].
  unfold turn. rewrite EJ. destruct (exec_cmd o c (w_tree w)); [cbn; apply set_eq|congruence].
Qed.
Lemma run_whole w j : Inv w -> cl -> links_all -> w_stop w = false -> (kat_job j = true -> libs_made w) ->
  w_job w j = Waiting \/ w_job w j = Running [] ->
  (forall k, In k (prereqs o j) -> w_job w k = Running []) ->
  w_job (fold_left (turn o) (whole j) w) j = Running [].
Proof.
  intros HI HC HL HS HK [EJ|EJ] HP; [|apply fold_done, EJ]. unfold whole. cbn [repeat fold_left].
  assert (E : turn o w j = {| w_tree := w_tree w; w_job := set_job (w_job w) j (Running (recipe j)); w_stop := w_stop w |}).
  { unfold turn. rewrite EJ, HS. rewrite (proj2 (forallb_forall _ _)); [reflexivity|]. intros k Hk. apply done_eq, HP, Hk. }
  apply run_lines; [apply Inv_turn, HI|exact HC|exact HL|apply turn_ok; assumption|intros Z v; apply turn_done, (HK Z)|].
  rewrite E. cbn. apply set_eq.
Qed.
Lemma turn_other w j k : j <> k -> w_job (turn o w j) k = w_job w k.
Proof.
  intros N. unfold turn. destruct (w_job w j) as [|[|c l]|]; try reflexivity.
  - destruct (_ && _); [cbn; apply set_neq, N|reflexivity].
  - destruct (exec_cmd o c (w_tree w)); cbn; apply set_neq, N.
Qed.
Lemma fold_other s w k : ~ In k s -> w_job (fold_left (turn o) s w) k = w_job w k.
Proof.
  revert w; induction s as [|j s IH]; intros w N; [reflexivity|]. cbn. rewrite IH by (intros K; apply N; right; exact K).
  apply turn_other. intros ->. apply N. left; reflexivity.
Qed.
(** Every target is made or not begun. *)
Definition settled (w : world) : Prop := forall k, w_job w k = Waiting \/ w_job w k = Running [].
Definition good (w : world) : Prop := Inv w /\ w_stop w = false /\ settled w.
Lemma good_whole w j : cl -> links_all -> good w -> (kat_job j = true -> libs_made w) ->
  (forall k, In k (prereqs o j) -> w_job w k = Running []) ->
  good (fold_left (turn o) (whole j) w) /\ w_job (fold_left (turn o) (whole j) w) j = Running [].
Proof.
  intros HC HL (HI & HS & HE) HK HP.
  assert (D : w_job (fold_left (turn o) (whole j) w) j = Running []) by (apply run_whole; auto).
  split; [|exact D]. split; [apply fold_Inv, HI|]. split.
  - apply fold_ok; [assumption..|]. destruct (kat_job j) eqn:E; [left; apply HK; reflexivity|right].
    unfold whole. apply Forall_forall. intros k Hk. apply repeat_spec in Hk. subst k. exact E.
  - intros k. destruct (job_eq_dec j k) as [<-|N]; [right; exact D|]. rewrite fold_other; [apply HE|].
    unfold whole. intros Hk. apply repeat_spec in Hk. congruence.
Qed.
Lemma good_objs l w : cl -> links_all -> good w ->
  let w' := fold_left (turn o) (concat (map whole (map JObj l))) w in
  good w' /\ (forall x, In x l -> w_job w' (JObj x) = Running []).
Proof.
  intros HC HL. revert w; induction l as [|x l IH]; intros w HG; cbn [map concat]; [split; [exact HG|intros y []]|].
  rewrite fold_left_app. destruct (good_whole w (JObj x) HC HL HG) as (G1 & D1); [discriminate|intros k []|].
  destruct (IH _ G1) as (G2 & D2). split; [exact G2|]. intros y [<-|Hy]; [apply fold_done, D1|apply D2, Hy].
Qed.
Definition with_objs (j : job) : list job := (concat (map whole (prereqs o j)) ++ whole j)%list.
Lemma good_with_objs w j l : cl -> links_all -> good w -> prereqs o j = map JObj l -> (kat_job j = true -> libs_made w) ->
  let w' := fold_left (turn o) (with_objs j) w in
  good w' /\ w_job w' j = Running [].
Proof.
  intros HC HL HG EP HK. unfold with_objs. rewrite fold_left_app, EP. destruct (good_objs l w HC HL HG) as (G1 & D1).
  apply good_whole; [exact HC|exact HL|exact G1|intros E v; apply fold_done, (HK E)|].
  rewrite EP. intros k Hk. apply in_map_iff in Hk as (x & <- & Hx). apply D1, Hx.
Qed.
Lemma serial_eq : serial o =
  (with_objs (JLib V640) ++ with_objs (JLib V976) ++ with_objs (JLib V1344) ++ whole JTests ++
   with_objs (JKLib V640) ++ with_objs (JKLib V976) ++ with_objs (JKLib V1344) ++ whole JKats)%list.
Proof. reflexivity. Qed.
Lemma serial_ends : cl -> links_all -> exit0 (make_j o T0 (serial o)) = true.
Proof.
  intros HC HL. unfold make_j. rewrite serial_eq. rewrite !(fold_left_app (turn o) (with_objs _)), (fold_left_app (turn o) (whole JTests)), !(fold_left_app (turn o) (with_objs _)).
  assert (G0 : good (begin T0)) by (split; [apply Inv_begin|split; [reflexivity|intros k; left; reflexivity]]).
  destruct (good_with_objs (begin T0) (JLib V640) _ HC HL G0 eq_refl) as (G1 & D1); [discriminate|]. set (w1 := fold_left _ _ (begin T0)) in *.
  destruct (good_with_objs w1 (JLib V976) _ HC HL G1 eq_refl) as (G2 & D2); [discriminate|].
  pose proof (fold_done (with_objs (JLib V976)) w1 _ D1) as D12. set (w2 := fold_left _ _ w1) in *.
  destruct (good_with_objs w2 (JLib V1344) _ HC HL G2 eq_refl) as (G3 & D3); [discriminate|].
  pose proof (fold_done (with_objs (JLib V1344)) w2 _ D12) as D13.
  pose proof (fold_done (with_objs (JLib V1344)) w2 _ D2) as D23. set (w3 := fold_left _ _ w2) in *.
  assert (L3 : libs_made w3) by (intros []; assumption).
  destruct (good_whole w3 JTests HC HL G3) as (G4 & D4); [discriminate|intros k [<-|[<-|[<-|[]]]]; apply L3|].
  assert (L4 : libs_made (fold_left (turn o) (whole JTests) w3)) by (intros v; apply fold_done, L3). set (w4 := fold_left _ _ w3) in *.
  destruct (good_with_objs w4 (JKLib V640) _ HC HL G4 eq_refl) as (G5 & D5); [intros _; exact L4|].
  assert (L5 : libs_made (fold_left (turn o) (with_objs (JKLib V640)) w4)) by (intros v; apply fold_done, L4).
  pose proof (fold_done (with_objs (JKLib V640)) w4 _ D4) as D45. set (w5 := fold_left _ _ w4) in *.
  destruct (good_with_objs w5 (JKLib V976) _ HC HL G5 eq_refl) as (G6 & D6); [intros _; exact L5|].
  assert (L6 : libs_made (fold_left (turn o) (with_objs (JKLib V976)) w5)) by (intros v; apply fold_done, L5).
  pose proof (fold_done (with_objs (JKLib V976)) w5 _ D45) as D46.
  pose proof (fold_done (with_objs (JKLib V976)) w5 _ D5) as D56. set (w6 := fold_left _ _ w5) in *.
  destruct (good_with_objs w6 (JKLib V1344) _ HC HL G6 eq_refl) as (G7 & D7); [intros _; exact L6|].
  assert (L7 : libs_made (fold_left (turn o) (with_objs (JKLib V1344)) w6)) by (intros v; apply fold_done, L6).
  pose proof (fold_done (with_objs (JKLib V1344)) w6 _ D46) as D47.
  pose proof (fold_done (with_objs (JKLib V1344)) w6 _ D56) as D57.
  pose proof (fold_done (with_objs (JKLib V1344)) w6 _ D6) as D67. set (w7 := fold_left _ _ w6) in *.
  destruct (good_whole w7 JKats HC HL G7) as (G8 & D8); [intros _; exact L7|intros k [<-|[<-|[<-|[]]]]; assumption|].
  unfold exit0, goals. cbn [forallb]. rewrite !(proj2 (done_eq _)); [reflexivity|exact D8| | | |]; apply fold_done; [exact D47|apply L7..].
Qed.
(** The targets that make can still make, after a recipe that failed, are not all the goals. *)
Lemma failed_exit w v : Inv w -> w_job w (JKLib v) = Failed -> exit0 w = false.
Proof.
  intros HI H. destruct (exit0 w) eqn:E; [|reflexivity]. unfold exit0, goals in E. cbn [forallb] in E.
  assert (K : w_job w JKats = Running []) by (apply done_eq; destruct (done (w_job w JKats)); [reflexivity|rewrite !andb_false_r in E; discriminate]).
  pose proof (i_pre w HI JKats ltac:(congruence) (JKLib v) ltac:(destruct v; cbn; auto)). congruence.
Qed.
End Run.

(** * make -j ends *)
Definition all_jobs : list job :=
  (map JObj all_objs ++ [JLib V640; JLib V976; JLib V1344; JTests; JKLib V640; JKLib V976; JKLib V1344; JKats])%list.
Lemma in_all_jobs j : In j all_jobs.
Proof. unfold all_jobs, all_objs. destruct j as [[[]| | | | | | | |]|[]| |[]|]; cbn; auto 25. Qed.
Lemma nodup_jobs : NoDup all_jobs.
Proof. unfold all_jobs, all_objs. cbn. repeat (constructor; [cbn; intuition discriminate|]). constructor. Qed.
Definition weight (j : job) (p : progress) : nat :=
  match p with Waiting => Datatypes.S (List.length (recipe j)) | Running l => List.length l | Failed => 0 end.
Definition mu (w : world) : nat := list_sum (map (fun j => weight j (w_job w j)) all_jobs).
Lemma sum_set (f : job -> progress) j p l : NoDup l -> In j l ->
  list_sum (map (fun k => weight k (set_job f j p k)) l) + weight j (f j) = list_sum (map (fun k => weight k (f k)) l) + weight j p.
Proof.
  assert (S0 : forall l, ~ In j l -> map (fun k => weight k (set_job f j p k)) l = map (fun k => weight k (f k)) l).
  { intros m Hm. apply map_ext_in. intros k Hk. rewrite set_neq; [reflexivity|]. intros ->. exact (Hm Hk). }
  induction 1 as [|k l Hk Hn IH]; intros Hj; [destruct Hj|]. unfold list_sum in *. cbn [map fold_right]. destruct (job_eq_dec k j) as [->|N].
  - rewrite (S0 l Hk), set_eq. lia.
  - destruct Hj as [->|Hj]; [congruence|]. specialize (IH Hj). rewrite set_neq by congruence. lia.
Qed.
(** Does a turn of j do anything? *)
Definition moved (o : options) (w : world) (j : job) : bool :=
  match w_job w j with
  | Waiting => negb (w_stop w) && forallb (fun k => done (w_job w k)) (prereqs o j)
  | Running (_ :: _) => true
  | _ => false
  end.
Lemma not_moved o w j : moved o w j = false -> turn o w j = w.
Proof. unfold moved, turn. destruct (w_job w j) as [|[|c l]|]; try reflexivity; [intros ->; reflexivity|discriminate]. Qed.
Lemma moved_less o w j : moved o w j = true -> mu (turn o w j) < mu w.
Proof.
  unfold moved, turn, mu. destruct (w_job w j) as [|[|c l]|] eqn:E; try discriminate.
  - intros ->. cbn [w_job]. pose proof (sum_set (w_job w) j (Running (recipe j)) all_jobs nodup_jobs (in_all_jobs j)) as H.
    rewrite E in H. cbn [weight] in H. lia.
  - intros _. destruct (exec_cmd o c (w_tree w)); cbn [w_job].
    + pose proof (sum_set (w_job w) j (Running l) all_jobs nodup_jobs (in_all_jobs j)) as H. rewrite E in H. cbn [weight List.length] in H. lia.
    + pose proof (sum_set (w_job w) j Failed all_jobs nodup_jobs (in_all_jobs j)) as H. rewrite E in H. cbn [weight List.length] in H. lia.
Qed.
Lemma failed_stops o T sched j : w_job (make_j o T sched) j = Failed -> w_stop (make_j o T sched) = true.
Proof.
  unfold make_j. assert (K : forall s w, (forall k, w_job w k = Failed -> w_stop w = true) ->
    forall k, w_job (fold_left (turn o) s w) k = Failed -> w_stop (fold_left (turn o) s w) = true).
  { induction s as [|i s IH]; intros w H; [exact H|]. cbn [fold_left]. apply IH. intros k. unfold turn.
    destruct (w_job w i) as [|[|c l]|] eqn:E; try apply H.
    - destruct (_ && _); [|apply H]. cbn. unfold set_job. destruct (job_eq_dec i k); [discriminate|apply H].
    - destruct (exec_cmd o c (w_tree w)); cbn; [|reflexivity]. unfold set_job. destruct (job_eq_dec i k); [discriminate|apply H]. }
  apply K. discriminate.
Qed.
(** While make has neither stopped nor ended, a target can go on. *)
Lemma can_move o T sched : let w := make_j o T sched in w_stop w = false -> exit0 w = false -> exists j, moved o w j = true.
Proof.
  intros w HS HE.
  assert (L : forall j, (forall k, In k (prereqs o j) -> w_job w k = Running [] \/ exists i, moved o w i = true) ->
    w_job w j = Running [] \/ exists i, moved o w i = true).
  { intros j HP. destruct (w_job w j) as [|[|c l]|] eqn:E.
    - destruct (forallb (fun k => done (w_job w k)) (prereqs o j)) eqn:EF.
      + right. exists j. unfold moved. rewrite E, HS, EF. reflexivity.
      + right. assert (X : exists k, In k (prereqs o j) /\ done (w_job w k) = false).
        { clear HP. induction (prereqs o j) as [|k l IH]; cbn in EF; [discriminate|]. destruct (done (w_job w k)) eqn:D.
          - destruct (IH EF) as (k' & K1 & K2). exists k'. split; [right; exact K1|exact K2].
          - exists k. split; [left; reflexivity|exact D]. }
        destruct X as (k & K1 & K2). destruct (HP k K1) as [Z|Z]; [|exact Z]. rewrite Z in K2. discriminate.
    - left; reflexivity.
    - right. exists j. unfold moved. rewrite E. reflexivity.
    - pose proof (failed_stops o T sched j E) as Z. fold w in Z. congruence. }
  assert (L1 : forall x, w_job w (JObj x) = Running [] \/ exists i, moved o w i = true) by (intros x; apply L; intros k []).
  assert (L2 : forall v, w_job w (JLib v) = Running [] \/ exists i, moved o w i = true).
  { intros v; apply L. intros k Hk. cbn [prereqs] in Hk. apply in_map_iff in Hk as (x & <- & _). apply L1. }
  assert (L3 : forall v, w_job w (JKLib v) = Running [] \/ exists i, moved o w i = true).
  { intros v; apply L. intros k Hk. cbn [prereqs] in Hk. apply in_map_iff in Hk as (x & <- & _). apply L1. }
  assert (L4 : w_job w JTests = Running [] \/ exists i, moved o w i = true).
  { apply L. intros k [<-|[<-|[<-|[]]]]; apply L2. }
  assert (L5 : w_job w JKats = Running [] \/ exists i, moved o w i = true).
  { apply L. intros k [<-|[<-|[<-|[]]]]; apply L3. }
  destruct (L2 V640) as [A|A]; [|exact A]. destruct (L2 V976) as [B|B]; [|exact B]. destruct (L2 V1344) as [C|C]; [|exact C].
  destruct L4 as [D|D]; [|exact D]. destruct L5 as [E|E]; [|exact E]. exfalso.
  unfold exit0, goals in HE. cbn [forallb] in HE. rewrite A, B, C, D, E in HE. discriminate.
Qed.
Section Fair.
Variables (o : options) (T : tree) (sched : nat -> job).
Hypothesis fair : forall n j, exists m, n <= m /\ sched m = j.
Definition run (n : nat) : world := make_j o T (map sched (seq 0 n)).
Lemma run_S n : run (Datatypes.S n) = turn o (run n) (sched n).
Proof. unfold run, make_j. rewrite seq_S, map_app, fold_left_app. reflexivity. Qed.
Lemma run_moves k n j : sched (n + k) = j -> moved o (run n) j = true -> exists m, n <= m /\ mu (run m) < mu (run n).
Proof.
  revert n; induction k as [|k IH]; intros n HS HM.
  - rewrite Nat.add_0_r in HS. subst j. exists (Datatypes.S n). split; [lia|]. rewrite run_S. apply moved_less, HM.
  - destruct (moved o (run n) (sched n)) eqn:E.
    + exists (Datatypes.S n). split; [lia|]. rewrite run_S. apply moved_less, E.
    + assert (R : run (Datatypes.S n) = run n) by (rewrite run_S; apply not_moved, E).
      destruct (IH (Datatypes.S n)) as (m & M1 & M2); [rewrite <- HS; f_equal; lia|rewrite R; exact HM|].
      exists m. rewrite R in M2. split; [lia|exact M2].
Qed.
Lemma run_ends : exists n, exit0 (run n) = true \/ w_stop (run n) = true.
Proof.
  assert (K : forall b n, mu (run n) < b -> exists m, exit0 (run m) = true \/ w_stop (run m) = true).
  { induction b as [|b IH]; intros n Hb; [lia|].
    destruct (exit0 (run n)) eqn:E1; [eauto|]. destruct (w_stop (run n)) eqn:E2; [eauto|].
    destruct (can_move o T (map sched (seq 0 n)) E2 E1) as (j & Hj). destruct (fair n j) as (m & M1 & M2).
    destruct (run_moves (m - n) n j) as (m' & N1 & N2); [rewrite <- M2; f_equal; lia|exact Hj|]. apply (IH m'). lia. }
  apply (K (Datatypes.S (mu (run 0))) 0). lia.
Qed.
End Fair.
