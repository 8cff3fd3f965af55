(** Lists of integers indexed by [Z]: the representation of C arrays.
    Nothing in this file models code; it is the vocabulary used by the model,
    by the specifications and by the theorem statements. *)
From Coq Require Export ZArith List Lia Bool.
Export ListNotations.
Open Scope Z_scope.

(** Linear arithmetic with division and modulo by constants. *)
Ltac dlia := Z.div_mod_to_equations; lia.

(** Number of elements. *)
Definition zlen {A} (l : list A) : Z := Z.of_nat (length l).

(** [znth l i]: element at index [i]; 0 outside the array.  The model never
    uses this default: array accesses of the model go through the checked
    [rd]/[wr] of CSem.v. *)
Definition znth (l : list Z) (i : Z) : Z :=
  if i <? 0 then 0 else nth (Z.to_nat i) l 0.

(** [zset l i v]: functional update; identity outside the array. *)
Fixpoint upd {A} (l : list A) (n : nat) (v : A) : list A :=
  match l, n with
  | [], _ => []
  | _ :: t, O => v :: t
  | h :: t, S n' => h :: upd t n' v
  end.
Definition zset {A} (l : list A) (i : Z) (v : A) : list A :=
  if i <? 0 then l else upd l (Z.to_nat i) v.

(** [zseq n] = [0; 1; ...; n-1]. *)
Definition zseq (n : Z) : list Z := map Z.of_nat (seq 0 (Z.to_nat n)).
(** [ztab n f] = [f 0; f 1; ...; f (n-1)]. *)
Definition ztab {A} (n : Z) (f : Z -> A) : list A := map f (zseq n).
(** [zslice l o n] = the [n] elements starting at offset [o]. *)
Definition zslice {A} (l : list A) (o n : Z) : list A :=
  firstn (Z.to_nat n) (skipn (Z.to_nat o) l).
(** [zsplice l o x] = [l] with the elements from offset [o] on replaced by [x]. *)
Definition zsplice {A} (l : list A) (o : Z) (x : list A) : list A :=
  firstn (Z.to_nat o) l ++ x ++ skipn (Z.to_nat o + length x) l.
(** [zrep n v] = [n] copies of [v]. *)
Definition zrep {A} (n : Z) (v : A) : list A := repeat v (Z.to_nat n).

(** Sum of [f 0 + ... + f (n-1)]. *)
Fixpoint sumn (n : nat) (f : Z -> Z) : Z :=
  match n with O => 0 | S k => sumn k f + f (Z.of_nat k) end.
Definition zsum (n : Z) (f : Z -> Z) : Z := sumn (Z.to_nat n) f.

(** All elements in [0, b). *)
Definition inrange (b : Z) (l : list Z) : Prop := Forall (fun v => 0 <= v < b) l.
Definition bytes_ok (l : list Z) : Prop := inrange 256 l.
Definition u16s_ok (l : list Z) : Prop := inrange 65536 l.
Definition u64s_ok (l : list Z) : Prop := inrange 18446744073709551616 l.

(* ------------------------------------------------------------------ *)
Lemma zlen_nonneg {A} (l : list A) : 0 <= zlen l.
Proof. unfold zlen; lia. Qed.

Lemma zlen_nil {A} : zlen (@nil A) = 0. Proof. reflexivity. Qed.
Lemma zlen_cons {A} (x : A) l : zlen (x :: l) = 1 + zlen l.
Proof. unfold zlen; cbn [length]; lia. Qed.
Lemma zlen_app {A} (l1 l2 : list A) : zlen (l1 ++ l2) = zlen l1 + zlen l2.
Proof. unfold zlen; rewrite app_length; lia. Qed.
Lemma zlen_map {A B} (f : A -> B) l : zlen (map f l) = zlen l.
Proof. unfold zlen; now rewrite map_length. Qed.

Lemma upd_length {A} (l : list A) n v : length (upd l n v) = length l.
Proof. revert n; induction l as [|h t IH]; intros [|n]; cbn; auto. Qed.
Lemma zlen_zset {A} (l : list A) i v : zlen (zset l i v) = zlen l.
Proof. unfold zset, zlen; destruct (i <? 0); [reflexivity|]; now rewrite upd_length. Qed.

Lemma zlen_zseq n : 0 <= n -> zlen (zseq n) = n.
Proof. intros; unfold zlen, zseq; rewrite map_length, seq_length; lia. Qed.
Lemma zlen_ztab {A} n (f : Z -> A) : 0 <= n -> zlen (ztab n f) = n.
Proof. intros; unfold ztab; rewrite zlen_map; now apply zlen_zseq. Qed.
Lemma zlen_zrep {A} n (v : A) : 0 <= n -> zlen (zrep n v) = n.
Proof. intros; unfold zrep, zlen; rewrite repeat_length; lia. Qed.
Lemma zlen_zslice {A} (l : list A) o n :
  0 <= o -> 0 <= n -> o + n <= zlen l -> zlen (zslice l o n) = n.
Proof. unfold zlen, zslice; intros; rewrite firstn_length, skipn_length; lia. Qed.
Lemma zlen_zsplice {A} (l : list A) o x :
  0 <= o -> o + zlen x <= zlen l -> zlen (zsplice l o x) = zlen l.
Proof.
  unfold zlen, zsplice; intros; rewrite !app_length, firstn_length, skipn_length; lia.
Qed.

Lemma znth_neg l i : i < 0 -> znth l i = 0.
Proof. intros; unfold znth; destruct (Z.ltb_spec i 0); [reflexivity|lia]. Qed.
Lemma znth_out l i : zlen l <= i -> znth l i = 0.
Proof.
  intros; unfold znth, zlen in *; destruct (Z.ltb_spec i 0); [reflexivity|].
  apply nth_overflow; lia.
Qed.
Lemma znth_cons0 x l : znth (x :: l) 0 = x. Proof. reflexivity. Qed.
Lemma znth_consS x l i : 0 < i -> znth (x :: l) i = znth l (i - 1).
Proof.
  intros; unfold znth.
  destruct (Z.ltb_spec i 0); [lia|]; destruct (Z.ltb_spec (i - 1) 0); [lia|].
  replace (Z.to_nat i) with (S (Z.to_nat (i - 1))) by lia; reflexivity.
Qed.

Lemma znth_nth_nat l n : znth l (Z.of_nat n) = nth n l 0.
Proof.
  unfold znth; destruct (Z.ltb_spec (Z.of_nat n) 0); [lia|]; now rewrite Nat2Z.id.
Qed.

Lemma nth_upd (l : list Z) n m v d :
  (n < length l)%nat -> nth m (upd l n v) d = if Nat.eqb n m then v else nth m l d.
Proof.
  revert n m; induction l as [|h t IH]; cbn; intros n m H; [lia|].
  destruct n, m; cbn; auto. apply IH; lia.
Qed.
Lemma znth_zset l i v j :
  0 <= i < zlen l -> znth (zset l i v) j = if i =? j then v else znth l j.
Proof.
  intros H; unfold zset; destruct (Z.ltb_spec i 0); [lia|].
  unfold znth; destruct (Z.ltb_spec j 0).
  - destruct (Z.eqb_spec i j); [lia|reflexivity].
  - rewrite nth_upd by (unfold zlen in H; lia).
    destruct (Z.eqb_spec i j) as [->|]; [now rewrite Nat.eqb_refl|].
    destruct (Nat.eqb_spec (Z.to_nat i) (Z.to_nat j)); [lia|reflexivity].
Qed.
Lemma znth_zset_eq l i v : 0 <= i < zlen l -> znth (zset l i v) i = v.
Proof. intros; rewrite znth_zset by assumption; now rewrite Z.eqb_refl. Qed.
Lemma znth_zset_ne l i v j : 0 <= i < zlen l -> i <> j -> znth (zset l i v) j = znth l j.
Proof. intros H N; rewrite znth_zset by assumption; apply Z.eqb_neq in N; now rewrite N. Qed.

Lemma zseq_nth n i d : 0 <= i < n -> nth (Z.to_nat i) (zseq n) d = i.
Proof.
  intros; unfold zseq.
  rewrite (nth_indep _ d (Z.of_nat 0)) by (rewrite map_length, seq_length; lia).
  rewrite map_nth, seq_nth by lia; lia.
Qed.
Lemma znth_ztab n f i : 0 <= i < n -> znth (ztab n f) i = f i.
Proof.
  intros; unfold znth; destruct (Z.ltb_spec i 0); [lia|].
  unfold ztab.
  rewrite (nth_indep _ 0 (f 0)) by
    (rewrite map_length; unfold zseq; rewrite map_length, seq_length; lia).
  rewrite map_nth; now rewrite zseq_nth.
Qed.
Lemma znth_map (f : Z -> Z) l i : 0 <= i < zlen l -> znth (map f l) i = f (znth l i).
Proof.
  intros H; unfold znth; destruct (Z.ltb_spec i 0); [lia|].
  rewrite (nth_indep _ 0 (f 0)) by (rewrite map_length; unfold zlen in H; lia).
  apply map_nth.
Qed.
Lemma znth_zrep n v i : 0 <= i < n -> znth (zrep n v) i = v.
Proof.
  intros; unfold znth; destruct (Z.ltb_spec i 0); [lia|].
  unfold zrep.
  rewrite (nth_indep _ 0 v) by (rewrite repeat_length; lia).
  now rewrite nth_repeat.
Qed.
Lemma znth_zrep0 n i : znth (zrep n 0) i = 0.
Proof.
  unfold znth; destruct (Z.ltb_spec i 0); [reflexivity|].
  unfold zrep; now rewrite nth_repeat.
Qed.

Lemma znth_app l1 l2 i :
  znth (l1 ++ l2) i = if i <? zlen l1 then znth l1 i else znth l2 (i - zlen l1).
Proof.
  unfold znth, zlen; destruct (Z.ltb_spec i 0).
  - destruct (Z.ltb_spec i (Z.of_nat (length l1))); [reflexivity|lia].
  - destruct (Z.ltb_spec i (Z.of_nat (length l1))).
    + apply app_nth1; lia.
    + rewrite app_nth2 by lia.
      destruct (Z.ltb_spec (i - Z.of_nat (length l1)) 0); [lia|f_equal; lia].
Qed.
Lemma znth_app1 l1 l2 i : i < zlen l1 -> znth (l1 ++ l2) i = znth l1 i.
Proof. intros; rewrite znth_app; destruct (Z.ltb_spec i (zlen l1)); [reflexivity|lia]. Qed.
Lemma znth_app2 l1 l2 i : zlen l1 <= i -> znth (l1 ++ l2) i = znth l2 (i - zlen l1).
Proof. intros; rewrite znth_app; destruct (Z.ltb_spec i (zlen l1)); [lia|reflexivity]. Qed.

Lemma nth_skipn_d {A} (l : list A) n m d : nth m (skipn n l) d = nth (n + m) l d.
Proof.
  revert l; induction n as [|n IH]; intros l; [reflexivity|].
  destruct l as [|h t]; cbn [skipn]; [destruct m; reflexivity|]. cbn; apply IH.
Qed.
Lemma nth_firstn_d {A} (l : list A) n m d : (m < n)%nat -> nth m (firstn n l) d = nth m l d.
Proof.
  revert l m; induction n as [|n IH]; intros l m H; [lia|].
  destruct l as [|h t]; [reflexivity|]; destruct m; cbn; [reflexivity|apply IH; lia].
Qed.
Lemma znth_zslice l o n i :
  0 <= o -> 0 <= i < n -> znth (zslice l o n) i = znth l (o + i).
Proof.
  intros; unfold znth, zslice.
  destruct (Z.ltb_spec i 0); [lia|]; destruct (Z.ltb_spec (o + i) 0); [lia|].
  rewrite nth_firstn_d by lia; rewrite nth_skipn_d; f_equal; lia.
Qed.
Lemma znth_zsplice l o x i :
  0 <= o -> o + zlen x <= zlen l ->
  znth (zsplice l o x) i =
    if (o <=? i) && (i <? o + zlen x) then znth x (i - o) else znth l i.
Proof.
  intros Ho Hl; unfold zsplice.
  assert (Hf : zlen (firstn (Z.to_nat o) l) = o)
    by (pose proof (zlen_nonneg x); unfold zlen in *; rewrite firstn_length; lia).
  rewrite znth_app, Hf.
  destruct (Z.leb_spec o i); destruct (Z.ltb_spec i o); try lia; cbn [andb].
  - rewrite znth_app.
    destruct (Z.ltb_spec (i - o) (zlen x)); destruct (Z.ltb_spec i (o + zlen x)); try lia;
      try reflexivity.
    unfold znth. destruct (Z.ltb_spec (i - o - zlen x) 0); [lia|].
    destruct (Z.ltb_spec i 0); [lia|].
    rewrite nth_skipn_d; f_equal; unfold zlen in *; lia.
  - unfold znth; destruct (Z.ltb_spec i 0); [reflexivity|].
    apply nth_firstn_d; lia.
Qed.

Lemma list_ext (l1 l2 : list Z) :
  zlen l1 = zlen l2 -> (forall i, 0 <= i < zlen l1 -> znth l1 i = znth l2 i) -> l1 = l2.
Proof.
  revert l2; induction l1 as [|h t IH]; intros [|h2 t2] HL HE.
  - reflexivity.
  - rewrite zlen_cons, zlen_nil in HL; pose proof (zlen_nonneg t2); lia.
  - rewrite zlen_cons, zlen_nil in HL; pose proof (zlen_nonneg t); lia.
  - rewrite !zlen_cons in HL. pose proof (zlen_nonneg t).
    f_equal.
    + apply (HE 0); rewrite zlen_cons; lia.
    + apply IH; [lia|]; intros i Hi.
      specialize (HE (i + 1)); rewrite !znth_consS in HE by lia.
      replace (i + 1 - 1) with i in HE by lia. apply HE; rewrite zlen_cons; lia.
Qed.

Lemma ztab_ext {A} n (f g : Z -> A) :
  (forall i, 0 <= i < n -> f i = g i) -> ztab n f = ztab n g.
Proof.
  intros H; unfold ztab; apply map_ext_in; intros a Ha.
  unfold zseq in Ha; apply in_map_iff in Ha; destruct Ha as (k & <- & Hk).
  apply in_seq in Hk; apply H; lia.
Qed.

Lemma zlist_ztab (l : list Z) : l = ztab (zlen l) (znth l).
Proof.
  apply list_ext; [rewrite zlen_ztab; auto using zlen_nonneg|].
  intros; now rewrite znth_ztab.
Qed.

Lemma map_ztab {A B} (g : A -> B) n f : map g (ztab n f) = ztab n (fun i => g (f i)).
Proof. unfold ztab; now rewrite map_map. Qed.

Lemma zslice_ztab (l : list Z) o n :
  0 <= o -> 0 <= n -> o + n <= zlen l ->
  zslice l o n = ztab n (fun i => znth l (o + i)).
Proof.
  intros; apply list_ext; [rewrite zlen_zslice, zlen_ztab; lia|].
  intros i Hi; rewrite zlen_zslice in Hi by lia.
  now rewrite znth_zslice, znth_ztab by lia.
Qed.

Lemma zsplice_slice_same (l : list Z) o x :
  0 <= o -> o + zlen x <= zlen l -> zslice (zsplice l o x) o (zlen x) = x.
Proof.
  intros; pose proof (zlen_nonneg x).
  apply list_ext; [rewrite zlen_zslice; rewrite ?zlen_zsplice; lia|].
  intros i Hi; rewrite zlen_zslice in Hi by (rewrite ?zlen_zsplice; lia).
  rewrite znth_zslice, znth_zsplice by lia.
  destruct (Z.leb_spec o (o + i)); destruct (Z.ltb_spec (o + i) (o + zlen x)); try lia.
  cbn; f_equal; lia.
Qed.
Lemma zslice_zsplice_other (l : list Z) o x p n :
  0 <= o -> o + zlen x <= zlen l -> 0 <= p -> 0 <= n -> p + n <= zlen l ->
  (p + n <= o \/ o + zlen x <= p) ->
  zslice (zsplice l o x) p n = zslice l p n.
Proof.
  intros; pose proof (zlen_nonneg x).
  apply list_ext; [rewrite !zlen_zslice; rewrite ?zlen_zsplice; lia|].
  intros i Hi; rewrite zlen_zslice in Hi by (rewrite ?zlen_zsplice; lia).
  rewrite !znth_zslice, znth_zsplice by lia.
  destruct (Z.leb_spec o (p + i)); destruct (Z.ltb_spec (p + i) (o + zlen x));
    try lia; reflexivity.
Qed.

Lemma zslice_all {A} (l : list A) : zslice l 0 (zlen l) = l.
Proof. unfold zslice, zlen; cbn [Z.to_nat skipn]; rewrite Nat2Z.id; apply firstn_all. Qed.
Lemma zslice_all_n {A} (l : list A) n : zlen l = n -> zslice l 0 n = l.
Proof. intros <-; apply zslice_all. Qed.
Lemma zslice_app1 {A} (a b : list A) n : zlen a = n -> zslice (a ++ b) 0 n = a.
Proof.
  intros <-; unfold zslice, zlen; cbn [Z.to_nat skipn]; rewrite Nat2Z.id.
  rewrite firstn_app, Nat.sub_diag, firstn_all; cbn; apply app_nil_r.
Qed.
Lemma zslice_app2 {A} (a b : list A) o n :
  zlen a = o -> zlen b = n -> zslice (a ++ b) o n = b.
Proof.
  intros <- <-; unfold zslice, zlen; rewrite !Nat2Z.id.
  rewrite skipn_app, skipn_all, Nat.sub_diag; cbn; apply firstn_all.
Qed.
Lemma zsplice_all {A} (l x : list A) : zlen x = zlen l -> zsplice l 0 x = x.
Proof.
  intros H; unfold zsplice; cbn [Z.to_nat firstn Nat.add].
  replace (length x) with (length l) by (unfold zlen in H; lia).
  rewrite skipn_all; cbn; apply app_nil_r.
Qed.

Lemma inrange_znth b l i : inrange b l -> 0 <= i < zlen l -> 0 <= znth l i < b.
Proof.
  intros H Hi; unfold inrange in H; rewrite Forall_forall in H; apply H.
  unfold znth; destruct (Z.ltb_spec i 0); [lia|]; apply nth_In; unfold zlen in Hi; lia.
Qed.
Lemma inrange_znth_all b l i : 0 < b -> inrange b l -> 0 <= znth l i < b.
Proof.
  intros Hb H; destruct (Z.ltb_spec i 0); [rewrite znth_neg; lia|].
  destruct (Z.ltb_spec i (zlen l)); [apply inrange_znth; auto; lia|rewrite znth_out; lia].
Qed.
Lemma inrange_intro b l : (forall i, 0 <= i < zlen l -> 0 <= znth l i < b) -> inrange b l.
Proof.
  intros H; unfold inrange; apply Forall_forall; intros x Hx.
  destruct (In_nth _ _ 0 Hx) as (n & Hn & <-).
  rewrite <- znth_nth_nat; apply H; unfold zlen; lia.
Qed.
Lemma inrange_ztab b n f : (forall i, 0 <= i < n -> 0 <= f i < b) -> inrange b (ztab n f).
Proof.
  intros H; unfold inrange, ztab; apply Forall_forall; intros x Hx.
  apply in_map_iff in Hx; destruct Hx as (i & <- & Hi).
  unfold zseq in Hi; apply in_map_iff in Hi; destruct Hi as (k & <- & Hk).
  apply in_seq in Hk; apply H; lia.
Qed.
Lemma inrange_app b l1 l2 : inrange b l1 -> inrange b l2 -> inrange b (l1 ++ l2).
Proof. intros; apply Forall_app; auto. Qed.
Lemma inrange_app_inv b l1 l2 : inrange b (l1 ++ l2) -> inrange b l1 /\ inrange b l2.
Proof. intros H; now apply Forall_app in H. Qed.
Lemma inrange_zrep0 b n : 0 < b -> inrange b (zrep n 0).
Proof.
  intros; unfold inrange, zrep; apply Forall_forall; intros x Hx.
  apply repeat_spec in Hx; subst; lia.
Qed.
Lemma inrange_zset b l i v : inrange b l -> 0 <= v < b -> inrange b (zset l i v).
Proof.
  intros H Hv; apply inrange_intro; rewrite zlen_zset; intros j Hj.
  destruct (Z.ltb_spec i 0) as [Hn|Hn].
  - unfold zset; destruct (Z.ltb_spec i 0); [|lia]; now apply inrange_znth.
  - destruct (Z.ltb_spec i (zlen l)).
    + rewrite znth_zset by lia; destruct (i =? j); [assumption|now apply inrange_znth].
    + unfold zset; destruct (Z.ltb_spec i 0); [lia|].
      replace (upd l (Z.to_nat i) v) with l; [now apply inrange_znth|].
      unfold zlen in *; clear - H0.
      assert (Hk : (length l <= Z.to_nat i)%nat) by lia.
      revert Hk; generalize (Z.to_nat i) as k; clear.
      induction l as [|h t IH]; intros [|k]; cbn; intros; try lia; [reflexivity..|].
      f_equal; apply IH; lia.
Qed.
Lemma inrange_firstn b n l : inrange b l -> inrange b (firstn n l).
Proof.
  unfold inrange; intros H; rewrite <- (firstn_skipn n l) in H.
  now apply Forall_app in H.
Qed.
Lemma inrange_skipn b n l : inrange b l -> inrange b (skipn n l).
Proof.
  unfold inrange; intros H; rewrite <- (firstn_skipn n l) in H.
  now apply Forall_app in H.
Qed.
Lemma inrange_zslice b l o n : inrange b l -> inrange b (zslice l o n).
Proof. intros; unfold zslice; apply inrange_firstn, inrange_skipn; assumption. Qed.
Lemma inrange_zsplice b l o x : inrange b l -> inrange b x -> inrange b (zsplice l o x).
Proof.
  intros; unfold zsplice; repeat apply inrange_app; auto using inrange_firstn, inrange_skipn.
Qed.
Lemma inrange_mono a b l : a <= b -> inrange a l -> inrange b l.
Proof. intros H; unfold inrange; apply Forall_impl; intros; lia. Qed.

Lemma zsum_0 f : zsum 0 f = 0. Proof. reflexivity. Qed.
Lemma zsum_succ n f : 0 <= n -> zsum (n + 1) f = zsum n f + f n.
Proof.
  intros; unfold zsum; replace (Z.to_nat (n + 1)) with (S (Z.to_nat n)) by lia.
  cbn [sumn]; now rewrite Z2Nat.id.
Qed.
Lemma sumn_ext n f g : (forall i, 0 <= i < Z.of_nat n -> f i = g i) -> sumn n f = sumn n g.
Proof.
  induction n as [|n IH]; intros H; [reflexivity|]; cbn [sumn].
  rewrite H by lia; rewrite IH; [reflexivity|]; intros; apply H; lia.
Qed.
Lemma zsum_ext n f g : (forall i, 0 <= i < n -> f i = g i) -> zsum n f = zsum n g.
Proof.
  intros H; unfold zsum; apply sumn_ext; intros i Hi; apply H.
  destruct (Z.ltb_spec n 0); lia.
Qed.
Lemma zsum_add n f g : zsum n (fun i => f i + g i) = zsum n f + zsum n g.
Proof. unfold zsum; induction (Z.to_nat n); cbn [sumn]; lia. Qed.
Lemma zsum_sub n f g : zsum n (fun i => f i - g i) = zsum n f - zsum n g.
Proof. unfold zsum; induction (Z.to_nat n); cbn [sumn]; lia. Qed.
Lemma zsum_scale n c f : zsum n (fun i => c * f i) = c * zsum n f.
Proof. unfold zsum; induction (Z.to_nat n); cbn [sumn]; lia. Qed.
Lemma zsum_scale_r n c f : zsum n (fun i => f i * c) = zsum n f * c.
Proof. unfold zsum; induction (Z.to_nat n); cbn [sumn]; lia. Qed.
Lemma zsum_zero n : zsum n (fun _ => 0) = 0.
Proof. unfold zsum; induction (Z.to_nat n); cbn [sumn]; lia. Qed.
Lemma zsum_swap n m f :
  zsum n (fun i => zsum m (fun j => f i j)) = zsum m (fun j => zsum n (fun i => f i j)).
Proof.
  unfold zsum at 1 4; induction (Z.to_nat n) as [|k IH]; cbn [sumn].
  - now rewrite zsum_zero.
  - rewrite IH; rewrite <- zsum_add; reflexivity.
Qed.
Lemma zsum_bound n f b : 0 <= n ->
  (forall i, 0 <= i < n -> Z.abs (f i) <= b) -> Z.abs (zsum n f) <= n * b.
Proof.
  intros Hn; unfold zsum.
  replace (n * b) with (Z.of_nat (Z.to_nat n) * b) by (rewrite Z2Nat.id; lia).
  intros H; assert (H' : forall i, 0 <= i < Z.of_nat (Z.to_nat n) -> Z.abs (f i) <= b)
    by (intros; apply H; lia); clear H; revert H'.
  induction (Z.to_nat n) as [|k IH]; intros H; cbn [sumn]; [lia|].
  assert (Z.abs (sumn k f) <= Z.of_nat k * b) by (apply IH; intros; apply H; lia).
  specialize (H (Z.of_nat k)); lia.
Qed.
Lemma zsum_split n m f : 0 <= n -> 0 <= m ->
  zsum (n + m) f = zsum n f + zsum m (fun i => f (n + i)).
Proof.
  intros Hn Hm; rewrite <- (Z2Nat.id m Hm); induction (Z.to_nat m) as [|k IH].
  - cbn [Z.of_nat]; rewrite Z.add_0_r, zsum_0; lia.
  - rewrite Nat2Z.inj_succ; unfold Z.succ; rewrite Z.add_assoc.
    rewrite !zsum_succ by lia; lia.
Qed.

(** sums modulo *)
Lemma zsum_mod_ext n f g q : q <> 0 ->
  (forall i, 0 <= i < n -> f i mod q = g i mod q) -> zsum n f mod q = zsum n g mod q.
Proof.
  intros Hq H; unfold zsum.
  assert (G : forall k, (k <= Z.to_nat n)%nat -> sumn k f mod q = sumn k g mod q).
  { induction k as [|k IH]; intros Hk; [reflexivity|]; cbn [sumn].
    rewrite Z.add_mod, IH, H by lia. now rewrite <- Z.add_mod by lia. }
  now apply G.
Qed.
