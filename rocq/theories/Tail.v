(** Counting byte strings, and an exponential-moment (Chernoff) bound with integer weights. *)
From Coq Require FinFun.
From Verif Require Import CSem Params UtilSpec KeccakSpec AesSpec MatrixSpec FrodoSpec FailSpec.

(* ------------------------------------------------------------------ *)
(** ** Sums and products over lists *)
Definition lsum {A} (f : A -> Z) (l : list A) : Z := fold_right (fun a s => f a + s) 0 l.
Definition lprod {A} (f : A -> Z) (l : list A) : Z := fold_right (fun a s => f a * s) 1 l.
Lemma lsum_app {A} (f : A -> Z) a b : lsum f (a ++ b) = lsum f a + lsum f b.
Proof. unfold lsum; induction a as [|x a IH]; cbn [app fold_right]; [lia|rewrite IH; lia]. Qed.
Lemma lsum_map {A B} (f : B -> Z) (h : A -> B) l : lsum f (map h l) = lsum (fun a => f (h a)) l.
Proof. unfold lsum; induction l as [|x l IH]; cbn [map fold_right]; [reflexivity|now rewrite IH]. Qed.
Lemma lsum_flat_map {A B} (f : B -> Z) (h : A -> list B) l : lsum f (flat_map h l) = lsum (fun a => lsum f (h a)) l.
Proof. induction l as [|x l IH]; [reflexivity|]. cbn [flat_map]. rewrite lsum_app, IH. reflexivity. Qed.
Lemma lsum_ext {A} (f h : A -> Z) l : (forall a, In a l -> f a = h a) -> lsum f l = lsum h l.
Proof.
  unfold lsum; induction l as [|x l IH]; intros H; cbn [fold_right]; [reflexivity|].
  rewrite (H x) by now left. rewrite IH by (intros; apply H; now right). reflexivity.
Qed.
Lemma lsum_scale {A} c (f : A -> Z) l : lsum (fun a => c * f a) l = c * lsum f l.
Proof. unfold lsum; induction l as [|x l IH]; cbn [fold_right]; [lia|rewrite IH; lia]. Qed.
Lemma lsum_scale_r {A} c (f : A -> Z) l : lsum (fun a => f a * c) l = lsum f l * c.
Proof. unfold lsum; induction l as [|x l IH]; cbn [fold_right]; [lia|rewrite IH; lia]. Qed.
Lemma lsum_add {A} (f h : A -> Z) l : lsum (fun a => f a + h a) l = lsum f l + lsum h l.
Proof. unfold lsum; induction l as [|x l IH]; cbn [fold_right]; [lia|rewrite IH; lia]. Qed.
Lemma lsum_le {A} (f h : A -> Z) l : (forall a, In a l -> f a <= h a) -> lsum f l <= lsum h l.
Proof.
  unfold lsum; induction l as [|x l IH]; intros H; cbn [fold_right]; [lia|].
  pose proof (H x ltac:(now left)). specialize (IH ltac:(intros; apply H; now right)). lia.
Qed.
Lemma lsum_zsum {A} (F : A -> Z -> Z) n l : lsum (fun a => zsum n (F a)) l = zsum n (fun i => lsum (fun a => F a i) l).
Proof.
  unfold lsum; induction l as [|x l IH]; cbn [fold_right]; [now rewrite zsum_zero|].
  rewrite IH, <- zsum_add. reflexivity.
Qed.
Lemma lsum_list_prod {A B} (f : A * B -> Z) l1 l2 : lsum f (list_prod l1 l2) = lsum (fun a => lsum (fun b => f (a, b)) l2) l1.
Proof.
  induction l1 as [|x l IH]; [reflexivity|]. cbn [list_prod]. rewrite lsum_app, lsum_map, IH. reflexivity.
Qed.
Lemma lsum_zseq f n : lsum f (zseq n) = zsum n f.
Proof.
  unfold zsum, zseq. generalize (Z.to_nat n) as m. clear n. intros m.
  induction m as [|m IH]; [reflexivity|].
  rewrite seq_S, map_app, lsum_app, IH. cbn [sumn map Nat.add]. unfold lsum; cbn [fold_right]. lia.
Qed.
Lemma count_lsum {A} (p : A -> bool) l : count p l = lsum (fun a => Z.b2z (p a)) l.
Proof.
  unfold count, lsum; induction l as [|x l IH]; [reflexivity|]. cbn [filter fold_right]. rewrite <- IH.
  destruct (p x); [rewrite zlen_cons|]; cbn [Z.b2z]; lia.
Qed.
Lemma lprod_mul {A} (f h : A -> Z) l : lprod (fun a => f a * h a) l = lprod f l * lprod h l.
Proof. unfold lprod; induction l as [|x l IH]; cbn [fold_right]; [lia|rewrite IH; lia]. Qed.
Lemma lprod_app {A} (f : A -> Z) a b : lprod f (a ++ b) = lprod f a * lprod f b.
Proof. unfold lprod; induction a as [|x a IH]; cbn [app fold_right]; [lia|rewrite IH; lia]. Qed.
Lemma lprod_map {A B} (f : B -> Z) (h : A -> B) l : lprod f (map h l) = lprod (fun a => f (h a)) l.
Proof. unfold lprod; induction l as [|x l IH]; cbn [map fold_right]; [reflexivity|now rewrite IH]. Qed.
Lemma lprod_ext {A} (f h : A -> Z) l : (forall a, In a l -> f a = h a) -> lprod f l = lprod h l.
Proof.
  unfold lprod; induction l as [|x l IH]; intros H; cbn [fold_right]; [reflexivity|].
  rewrite (H x) by now left. rewrite IH by (intros; apply H; now right). reflexivity.
Qed.
Lemma lprod_const {A} c (l : list A) : lprod (fun _ => c) l = c ^ zlen l.
Proof.
  unfold lprod; induction l as [|x l IH]; cbn [fold_right]; [reflexivity|].
  rewrite IH, zlen_cons, Z.pow_add_r by (try lia; apply zlen_nonneg). now rewrite Z.pow_1_r.
Qed.
Lemma lprod_one {A} (f : A -> Z) x : lprod f [x] = f x.
Proof. unfold lprod; cbn [fold_right]. lia. Qed.
Lemma in_zseq n i : In i (zseq n) <-> 0 <= i < n.
Proof.
  unfold zseq. rewrite in_map_iff. split.
  - intros (k & <- & Hk). apply in_seq in Hk. lia.
  - intros H. exists (Z.to_nat i). split; [lia|]. apply in_seq; lia.
Qed.
Lemma nodup_zseq n : NoDup (zseq n).
Proof. unfold zseq. apply FinFun.Injective_map_NoDup; [intros a b; lia|apply seq_NoDup]. Qed.

(** Products over positions *)
Fixpoint nprod (m : nat) (F : Z -> Z) : Z :=
  match m with O => 1 | Datatypes.S m => F 0 * nprod m (fun i => F (i + 1)) end.
Lemma nprod_ext m : forall F G, (forall i, 0 <= i < Z.of_nat m -> F i = G i) -> nprod m F = nprod m G.
Proof.
  induction m as [|m IH]; intros F G H; [reflexivity|]. cbn [nprod].
  rewrite (H 0) by lia. f_equal. apply IH. intros i Hi. apply H; lia.
Qed.
Lemma nprod_mul m : forall F G, nprod m (fun i => F i * G i) = nprod m F * nprod m G.
Proof. induction m as [|m IH]; intros F G; cbn [nprod]; [reflexivity|]. rewrite (IH (fun i => F (i + 1)) (fun i => G (i + 1))). lia. Qed.
Lemma nprod_one m : nprod m (fun _ => 1) = 1.
Proof. induction m as [|m IH]; cbn [nprod]; [reflexivity|rewrite IH; reflexivity]. Qed.
Lemma nprod_const m c : nprod m (fun _ => c) = c ^ Z.of_nat m.
Proof. induction m as [|m IH]; cbn [nprod]; [reflexivity|]. rewrite IH, Nat2Z.inj_succ, Z.pow_succ_r by lia. reflexivity. Qed.
Lemma nprod_upd m : forall F x p, 0 <= p < Z.of_nat m ->
  nprod m (fun i => if p =? i then x else F i) * F p = nprod m F * x.
Proof.
  induction m as [|m IH]; intros F x p Hp; [lia|]. cbn [nprod].
  destruct (Z.eqb_spec p 0) as [->|Hn].
  - rewrite (nprod_ext m (fun i => if 0 =? i + 1 then x else F (i + 1)) (fun i => F (i + 1))).
    + lia.
    + intros i Hi. destruct (Z.eqb_spec 0 (i + 1)); [lia|reflexivity].
  - specialize (IH (fun i => F (i + 1)) x (p - 1) ltac:(lia)). cbn beta in IH. replace (p - 1 + 1) with p in IH by lia.
    rewrite (nprod_ext m (fun i => if p =? i + 1 then x else F (i + 1)) (fun i => if p - 1 =? i then x else F (i + 1))).
    + rewrite <- Z.mul_assoc, IH. lia.
    + intros i Hi. destruct (Z.eqb_spec p (i + 1)); destruct (Z.eqb_spec (p - 1) i); try lia; reflexivity.
Qed.
Lemma nprod_at m h p : 0 <= p < Z.of_nat m -> nprod m (fun i => if p =? i then h i else 1) = h p.
Proof.
  intros Hp. pose proof (nprod_upd m (fun _ => 1) (h p) p Hp) as K. cbn beta in K. rewrite nprod_one in K.
  rewrite (nprod_ext m _ (fun i => if p =? i then h p else 1)); [lia|].
  intros i Hi. destruct (Z.eqb_spec p i) as [->|]; reflexivity.
Qed.
Lemma nprod_lprod {A} (F : A -> Z -> Z) m l : nprod m (fun i => lprod (fun a => F a i) l) = lprod (fun a => nprod m (F a)) l.
Proof.
  unfold lprod; induction l as [|x l IH]; cbn [fold_right]; [apply nprod_one|].
  rewrite nprod_mul, IH. reflexivity.
Qed.

(* ------------------------------------------------------------------ *)
(** ** Sums over byte strings of products of functions of their 16-bit words *)
Definition wsum (f : Z -> Z) : Z := zsum 256 (fun b0 => zsum 256 (fun b1 => f (b0 + 256 * b1))).
Lemma bytestrings_two F m :
  lsum F (bytestrings (Datatypes.S (Datatypes.S m))) =
  zsum 256 (fun b0 => zsum 256 (fun b1 => lsum (fun l => F (b0 :: b1 :: l)) (bytestrings m))).
Proof.
  cbn [bytestrings]. rewrite lsum_flat_map, lsum_zseq. apply zsum_ext; intros b0 _. rewrite lsum_map.
  rewrite lsum_flat_map, lsum_zseq. apply zsum_ext; intros b1 _. rewrite lsum_map. reflexivity.
Qed.
Lemma word16_cons2 b0 b1 l i : 0 <= i -> word16 (b0 :: b1 :: l) (i + 1) = word16 l i.
Proof.
  intros Hi. unfold word16. rewrite !(znth_consS b0) by lia. rewrite !(znth_consS b1) by lia. f_equal; [|f_equal]; f_equal; lia.
Qed.
Lemma strings_nprod m : forall f : Z -> Z -> Z,
  lsum (fun r => nprod m (fun p => f p (word16 r p))) (bytestrings (2 * m)) = nprod m (fun p => wsum (f p)).
Proof.
  induction m as [|m IH]; intros f; [reflexivity|].
  replace (2 * Datatypes.S m)%nat with (Datatypes.S (Datatypes.S (2 * m))) by lia.
  rewrite bytestrings_two. cbn [nprod]. unfold wsum at 1. rewrite <- zsum_scale_r. apply zsum_ext; intros b0 _.
  rewrite <- zsum_scale_r. apply zsum_ext; intros b1 _.
  rewrite <- (IH (fun p => f (p + 1))), <- lsum_scale. apply lsum_ext. intros l _.
  replace (word16 (b0 :: b1 :: l) 0) with (b0 + 256 * b1) by reflexivity. f_equal.
  apply nprod_ext. intros i Hi. rewrite word16_cons2 by lia. reflexivity.
Qed.
Lemma wsum_one : wsum (fun _ => 1) = 65536.
Proof. unfold wsum. vm_compute. reflexivity. Qed.
Lemma wsum_ext f h : (forall w, f w = h w) -> wsum f = wsum h.
Proof. intros H. unfold wsum. apply zsum_ext; intros; apply zsum_ext; intros; apply H. Qed.

Lemma arrange a b c d e : a * b = d * e -> a * c * b = d * (c * e).
Proof. intros H. replace (a * c * b) with (c * (a * b)) by ring. rewrite H. ring. Qed.
(** The factors sit at distinct positions. *)
Notation slot := (Z * (Z -> Z))%type.
Definition here (p w : Z) (x : slot) : Z := if fst x =? p then snd x w else 1.
Definition at_pos (L : list slot) (p w : Z) : Z := lprod (here p w) L.
Lemma at_pos_none L p w : ~ In p (map fst L) -> at_pos L p w = 1.
Proof.
  intros H. unfold at_pos. rewrite (lprod_ext _ (fun _ => 1)); [rewrite lprod_const; apply Z.pow_1_l, zlen_nonneg|].
  intros a Ha. unfold here. destruct (Z.eqb_spec (fst a) p) as [E|]; [|reflexivity]. exfalso; apply H. rewrite <- E. now apply in_map.
Qed.
Lemma wsum_slots m : forall L, NoDup (map fst L) -> (forall p, In p (map fst L) -> 0 <= p < Z.of_nat m) ->
  nprod m (fun p => wsum (at_pos L p)) * 65536 ^ zlen L = 65536 ^ Z.of_nat m * lprod (fun x => wsum (snd x)) L.
Proof.
  induction L as [|[p f] L IH]; intros HN HR.
  - rewrite (nprod_ext m _ (fun _ => 65536)); [rewrite nprod_const; cbn; lia|].
    intros i _. rewrite <- wsum_one. apply wsum_ext. reflexivity.
  - cbn [map fst] in HN, HR. inversion HN as [|? ? Hp HN']; subst.
    specialize (IH HN' ltac:(intros; apply HR; now right)).
    rewrite (nprod_ext m _ (fun i => if p =? i then wsum f else wsum (at_pos L i))).
    + pose proof (nprod_upd m (fun i => wsum (at_pos L i)) (wsum f) p (HR p ltac:(now left))) as K. cbn beta in K.
      rewrite (wsum_ext (at_pos L p) (fun _ => 1)) in K by (intros; now apply at_pos_none). rewrite wsum_one in K.
      rewrite zlen_cons, Z.pow_add_r, Z.pow_1_r by (try lia; apply zlen_nonneg).
      rewrite Z.mul_assoc, K. change (lprod (fun x : slot => wsum (snd x)) ((p, f) :: L)) with (wsum f * lprod (fun x : slot => wsum (snd x)) L).
      revert IH. generalize (65536 ^ zlen L) (65536 ^ Z.of_nat m). intros x y IH.
      apply arrange with (1 := IH).
    + intros i _. destruct (Z.eqb_spec p i) as [<-|Hne].
      * apply wsum_ext. intros w. unfold at_pos. cbn [lprod fold_right]. unfold here at 1. cbn [fst snd]. rewrite Z.eqb_refl.
        change (fold_right _ 1 L) with (at_pos L p w). rewrite at_pos_none by exact Hp. lia.
      * apply wsum_ext. intros w. unfold at_pos. cbn [lprod fold_right]. unfold here at 1. cbn [fst snd].
        destruct (Z.eqb_spec p i); [lia|]. change (fold_right _ 1 L) with (lprod (here i w) L). lia.
Qed.
Lemma strings_slots m L : NoDup (map fst L) -> (forall p, In p (map fst L) -> 0 <= p < Z.of_nat m) ->
  lsum (fun r => lprod (fun x => snd x (word16 r (fst x))) L) (bytestrings (2 * m)) * 65536 ^ zlen L =
  65536 ^ Z.of_nat m * lprod (fun x => wsum (snd x)) L.
Proof.
  intros HN HR. rewrite <- (wsum_slots m L HN HR), <- strings_nprod. f_equal. apply lsum_ext. intros r _.
  transitivity (lprod (fun x => nprod m (fun i => here i (word16 r i) x)) L);
    [|symmetry; exact (nprod_lprod (fun (x : slot) i => here i (word16 r i) x) m L)]. apply lprod_ext. intros [p f] Hx. unfold here. cbn [fst snd].
  rewrite (nprod_at m (fun i => f (word16 r i))); [reflexivity|]. apply HR. apply (in_map fst) in Hx. exact Hx.
Qed.

(* ------------------------------------------------------------------ *)
(** ** Sums over words by value of the sample *)
Lemma zsum_blocks k f : 0 <= k -> zsum (256 * k) f = zsum k (fun i => zsum 256 (fun j => f (256 * i + j))).
Proof.
  intros Hk. pattern k. apply natlike_ind; [reflexivity| |exact Hk]. intros x Hx IH. unfold Z.succ.
  rewrite zsum_succ by lia. replace (256 * (x + 1)) with (256 * x + 256) by lia. rewrite zsum_split by lia. rewrite IH. reflexivity.
Qed.
Lemma wsum_words f : wsum f = zsum 65536 f.
Proof.
  unfold wsum. rewrite zsum_swap. change 65536 with (256 * 256). rewrite zsum_blocks by lia.
  apply zsum_ext; intros i _. apply zsum_ext; intros j _. f_equal; lia.
Qed.
Lemma zsum_1 f : zsum 1 f = f 0.
Proof. exact (zsum_succ 0 f (Z.le_refl 0)). Qed.
Lemma zsum_pick m x (h : Z -> Z) : 0 <= x < m -> zsum m (fun i => Z.b2z (x =? i) * h i) = h x.
Proof.
  intros Hx. rewrite <- (zsum_ext m (fun i => Z.b2z (x =? i) * h x)).
  - rewrite zsum_scale_r. enough (E : zsum m (fun i => Z.b2z (x =? i)) = 1) by (rewrite E; lia).
    replace m with (x + (1 + (m - x - 1))) by lia. rewrite zsum_split by lia. rewrite zsum_split by lia.
    rewrite (zsum_ext x _ (fun _ => 0)), (zsum_ext (m - x - 1) _ (fun _ => 0)), !zsum_zero.
    + rewrite zsum_1. replace (x + 0) with x by lia. rewrite Z.eqb_refl. reflexivity.
    + intros i Hi. destruct (Z.eqb_spec x (x + (1 + i))); [lia|reflexivity].
    + intros i Hi. destruct (Z.eqb_spec x i); [lia|reflexivity].
  - intros i _. destruct (Z.eqb_spec x i) as [->|]; reflexivity.
Qed.
Lemma wsum_values (s phi : Z -> Z) tm : 0 <= tm -> (forall w, Z.abs (s w) <= tm) ->
  wsum (fun w => phi (s w)) =
  zsum (2 * tm + 1) (fun i => zsum 65536 (fun w => Z.b2z (s w =? i - tm)) * phi (i - tm)).
Proof.
  intros Ht Hs. rewrite wsum_words.
  rewrite (zsum_ext (2 * tm + 1) _ (fun i => zsum 65536 (fun w => Z.b2z (s w =? i - tm) * phi (i - tm))))
    by (intros; now rewrite zsum_scale_r).
  rewrite zsum_swap. apply zsum_ext. intros w _. specialize (Hs w).
  pose proof (zsum_pick (2 * tm + 1) (s w + tm) (fun i => phi (i - tm)) ltac:(lia)) as K. cbn beta in K.
  replace (s w + tm - tm) with (s w) in K by lia. rewrite <- K. apply zsum_ext. intros i _. f_equal. f_equal.
  destruct (Z.eqb_spec (s w + tm) i); destruct (Z.eqb_spec (s w) (i - tm)); lia || reflexivity.
Qed.

(* ------------------------------------------------------------------ *)
(** ** Integer weights: c^(m+x) d^(m-x), a multiple of (c/d)^x *)
Local Opaque wsum.
Section Weights.
Variables c d : Z.
Hypothesis Hd : 0 < d.
Hypothesis Hc : d <= c.
Definition wt (m x : Z) : Z := c ^ (m + x) * d ^ (m - x).
Lemma wt_pos m x : Z.abs x <= m -> 0 < wt m x.
Proof. intros H. unfold wt. apply Z.mul_pos_pos; apply Z.pow_pos_nonneg; lia. Qed.
Lemma wt_mul m m' x y : Z.abs x <= m -> Z.abs y <= m' -> wt m x * wt m' y = wt (m + m') (x + y).
Proof.
  intros H H'. unfold wt.
  replace (m + m' + (x + y)) with ((m + x) + (m' + y)) by lia. replace (m + m' - (x + y)) with ((m - x) + (m' - y)) by lia.
  rewrite (Z.pow_add_r c (m + x)), (Z.pow_add_r d (m - x)) by lia. ring.
Qed.
Lemma wt_0 : wt 0 0 = 1. Proof. reflexivity. Qed.
Lemma wt_prod m n (x : Z -> Z) : 0 <= n -> 0 <= m -> (forall j, Z.abs (x j) <= m) ->
  Z.abs (zsum n x) <= n * m /\ lprod (fun j => wt m (x j)) (zseq n) = wt (n * m) (zsum n x).
Proof.
  intros Hn Hm Hx. pattern n. apply natlike_ind; [split; [cbn; lia|apply wt_0]| |exact Hn].
  intros k Hk (IH1 & IH2). unfold Z.succ. rewrite zsum_succ by lia. specialize (Hx k). split; [lia|].
  assert (E : zseq (k + 1) = zseq k ++ [k]).
  { unfold zseq. replace (Z.to_nat (k + 1)) with (Z.to_nat k + 1)%nat by lia. rewrite seq_app, map_app. cbn. f_equal. f_equal. lia. }
  rewrite E, lprod_app, IH2. cbn [lprod fold_right]. rewrite Z.mul_1_r, wt_mul by lia. f_equal. lia.
Qed.
Lemma wt_mono m x y : Z.abs x <= m -> Z.abs y <= m -> x <= y -> wt m x <= wt m y.
Proof.
  intros Hx Hy H. unfold wt. replace (m + y) with ((m + x) + (y - x)) by lia. replace (m - x) with ((m - y) + (y - x)) by lia.
  rewrite (Z.pow_add_r c (m + x)), (Z.pow_add_r d (m - y)) by lia.
  assert (d ^ (y - x) <= c ^ (y - x)) by (apply Z.pow_le_mono_l; lia).
  assert (0 < c ^ (m + x)) by (apply Z.pow_pos_nonneg; lia). assert (0 < d ^ (m - y)) by (apply Z.pow_pos_nonneg; lia).
  rewrite <- (Z.mul_assoc (c ^ (m + x))). rewrite (Z.mul_comm (c ^ (y - x))). apply Z.mul_le_mono_nonneg_l; [lia|].
  apply Z.mul_le_mono_nonneg_l; lia.
Qed.

(* ------------------------------------------------------------------ *)
(** ** One entry of the noise *)
Variables (s : Z -> Z) (tm n : Z).
Hypothesis Htm : 0 <= tm.
Hypothesis Hs : forall w, Z.abs (s w) <= tm.
Hypothesis Hn : 0 < n.
(** Entry t of S'E + E'' - E'S. *)
Definition entry (r r' : list Z) (t : Z) : Z :=
  zsum n (fun j => s (word16 r' (t / 8 * n + j)) * s (word16 r (8 * n + (8 * j + t mod 8)))) + s (word16 r' (16 * n + t))
  - zsum n (fun j => s (word16 r' (8 * n + (t / 8 * n + j))) * s (word16 r (t mod 8 * n + j))).
Definition big : Z := n * (tm * tm) + tm + n * (tm * tm).
Definition Gs (x : Z) : Z := wsum (fun w => wt (tm * tm) (s w * x)).
Definition Hs_ (sg : Z) : Z := wsum (fun w => Gs (sg * s w)).
Definition G1 (sg : Z) : Z := wsum (fun w => wt tm (sg * s w)).

Lemma abs_mul2 x y : Z.abs x <= tm -> Z.abs y <= tm -> Z.abs (x * y) <= tm * tm.
Proof. intros. rewrite Z.abs_mul. apply Z.mul_le_mono_nonneg; try lia; apply Z.abs_nonneg. Qed.

Section OneEntry.
Variables (t sg : Z).
Hypothesis Ht : 0 <= t < 64.
Hypothesis Hsg : sg = 1 \/ sg = -1.
Let i := t / 8.
Let k := t mod 8.
Lemma ik : 0 <= i < 8 /\ 0 <= k < 8.
Proof. unfold i, k. split; [split; [apply Z.div_pos; lia|apply Z.div_lt_upper_bound; lia]|apply Z.mod_pos_bound; lia]. Qed.

Definition slots' (r : list Z) : list slot :=
  map (fun j => (i * n + j, fun w => wt (tm * tm) (s w * (sg * s (word16 r (8 * n + (8 * j + k))))))) (zseq n) ++
  map (fun j => (8 * n + (i * n + j), fun w => wt (tm * tm) (s w * (- sg * s (word16 r (k * n + j)))))) (zseq n) ++
  [(16 * n + t, fun w => wt tm (sg * s w))].
Definition slots : list slot :=
  map (fun j => (8 * n + (8 * j + k), fun w => Gs (sg * s w))) (zseq n) ++
  map (fun j => (k * n + j, fun w => Gs (- sg * s w))) (zseq n).

Lemma nodup_map (f : Z -> Z) m : (forall a b, f a = f b -> a = b) -> NoDup (map f (zseq m)).
Proof. intros H. apply FinFun.Injective_map_NoDup; [exact H|apply nodup_zseq]. Qed.
Lemma nodup_app {A} (a b : list A) : NoDup a -> NoDup b -> (forall x, In x a -> ~ In x b) -> NoDup (a ++ b).
Proof.
  induction a as [|x a IH]; intros Ha Hb H; [exact Hb|]. cbn [app]. inversion Ha; subst. constructor.
  - rewrite in_app_iff. intros [K|K]; [auto|]. exact (H x ltac:(now left) K).
  - apply IH; auto. intros y Hy. apply H. now right.
Qed.
Lemma row_lt a b : 0 <= a < 8 -> 0 <= b < n -> 0 <= a * n + b < 8 * n.
Proof. intros. pose proof (Z.mul_le_mono_nonneg_r a 7 n ltac:(lia) ltac:(lia)). pose proof (Z.mul_nonneg_nonneg a n). lia. Qed.
Lemma slots'_ok r : NoDup (map fst (slots' r)) /\ (forall p, In p (map fst (slots' r)) -> 0 <= p < 16 * n + 64) /\ zlen (slots' r) = 2 * n + 1.
Proof.
  destruct ik as (Hi & Hk). unfold slots'. rewrite !map_app, !map_map, !zlen_app, !zlen_map, zlen_zseq by lia. cbn [map fst].
  split; [|split; [|rewrite zlen_cons, zlen_nil; lia]].
  - apply nodup_app; [apply nodup_map; intros; lia|apply nodup_app; [apply nodup_map; intros; lia|repeat constructor; auto|]|].
    + intros x Hx [Hy|[]]. apply in_map_iff in Hx. destruct Hx as (j & Ex & Hj). apply in_zseq in Hj. pose proof (row_lt i j Hi Hj). lia.
    + intros x Hx Hy. apply in_map_iff in Hx. destruct Hx as (j & Ex & Hj). apply in_zseq in Hj. pose proof (row_lt i j Hi Hj).
      apply in_app_iff in Hy. destruct Hy as [Hy|[Hy|[]]]; [|lia].
      apply in_map_iff in Hy. destruct Hy as (j' & Ey & Hj'). apply in_zseq in Hj'. pose proof (row_lt i j' Hi Hj'). lia.
  - intros p Hp. rewrite !in_app_iff in Hp. destruct Hp as [Hp|[Hp|[Hp|[]]]]; [| |lia];
      apply in_map_iff in Hp; destruct Hp as (j & Ex & Hj); apply in_zseq in Hj; pose proof (row_lt i j Hi Hj); lia.
Qed.
Lemma slots_ok : NoDup (map fst slots) /\ (forall p, In p (map fst slots) -> 0 <= p < 16 * n) /\ zlen slots = 2 * n.
Proof.
  destruct ik as (Hi & Hk). unfold slots. rewrite !map_app, !map_map, !zlen_app, !zlen_map, zlen_zseq by lia. cbn [map fst].
  split; [|split; [|lia]].
  - apply nodup_app; [apply nodup_map; intros; lia|apply nodup_map; intros; lia|].
    intros x Hx Hy. apply in_map_iff in Hx. destruct Hx as (j & Ex & Hj). apply in_zseq in Hj.
    apply in_map_iff in Hy. destruct Hy as (j' & Ey & Hj'). apply in_zseq in Hj'. pose proof (row_lt k j' Hk Hj'). lia.
  - intros p Hp. rewrite !in_app_iff in Hp. destruct Hp as [Hp|Hp];
      apply in_map_iff in Hp; destruct Hp as (j & Ex & Hj); apply in_zseq in Hj; [lia|]. pose proof (row_lt k j Hk Hj). lia.
Qed.
Lemma abs_sg x : Z.abs (sg * x) = Z.abs x /\ Z.abs (- sg * x) = Z.abs x.
Proof. destruct Hsg as [-> | ->]; lia. Qed.
(** The weight of the entry is the product of the slots. *)
Lemma weight_slots r r' : lprod (fun x => snd x (word16 r' (fst x))) (slots' r) = wt big (sg * entry r r' t) /\ Z.abs (entry r r' t) <= big.
Proof.
  unfold slots'. rewrite !lprod_app, !lprod_map. rewrite lprod_one. cbn [fst snd].
  destruct (wt_prod (tm * tm) n (fun j => s (word16 r' (i * n + j)) * (sg * s (word16 r (8 * n + (8 * j + k)))))) as (B1 & E1); [lia|lia| |].
  { intros j. apply abs_mul2; [apply Hs|]. rewrite (proj1 (abs_sg _)). apply Hs. }
  destruct (wt_prod (tm * tm) n (fun j => s (word16 r' (8 * n + (i * n + j))) * (- sg * s (word16 r (k * n + j))))) as (B2 & E2); [lia|lia| |].
  { intros j. apply abs_mul2; [apply Hs|]. rewrite (proj2 (abs_sg _)). apply Hs. }
  pose proof (Hs (word16 r' (16 * n + t))) as B3. rewrite <- (proj1 (abs_sg _)) in B3.
  rewrite E1, E2.
  rewrite (wt_mul _ _ _ _ B2 B3). rewrite wt_mul; [|exact B1|lia].
  assert (X1 : zsum n (fun j => s (word16 r' (i * n + j)) * (sg * s (word16 r (8 * n + (8 * j + k)))))
             = sg * zsum n (fun j => s (word16 r' (i * n + j)) * s (word16 r (8 * n + (8 * j + k))))).
  { rewrite <- zsum_scale. apply zsum_ext. intros; ring. }
  assert (X2 : zsum n (fun j => s (word16 r' (8 * n + (i * n + j))) * (- sg * s (word16 r (k * n + j))))
             = - sg * zsum n (fun j => s (word16 r' (8 * n + (i * n + j))) * s (word16 r (k * n + j)))).
  { rewrite <- zsum_scale. apply zsum_ext. intros; ring. }
  rewrite X1 in *. rewrite X2 in *. unfold big, entry. fold i. fold k. split.
  - f_equal; [lia|ring].
  - rewrite (proj1 (abs_sg _)) in B1. rewrite (proj2 (abs_sg _)) in B2. rewrite (proj1 (abs_sg _)) in B3. lia.
Qed.
Definition strs (m : Z) : list (list Z) := bytestrings (Z.to_nat (2 * m)).
Lemma strs_slots m L : 0 <= m -> NoDup (map fst L) -> (forall p, In p (map fst L) -> 0 <= p < m) ->
  lsum (fun r => lprod (fun x => snd x (word16 r (fst x))) L) (strs m) * 65536 ^ zlen L =
  65536 ^ m * lprod (fun x => wsum (snd x)) L.
Proof.
  intros Hm HN HR. unfold strs. pose proof (strings_slots (Z.to_nat m) L HN) as K. rewrite Z2Nat.id in K by lia.
  replace (Z.to_nat (2 * m)) with (2 * Z.to_nat m)%nat by lia. apply K. exact HR.
Qed.
Lemma sum_weights :
  lsum (fun r => lsum (fun r' => wt big (sg * entry r r' t)) (strs (16 * n + 64))) (strs (16 * n)) * 65536 ^ (4 * n + 1) =
  65536 ^ (32 * n + 64) * (Hs_ sg ^ n * Hs_ (- sg) ^ n * G1 sg).
Proof.
  assert (E1 : forall r, lsum (fun r' => wt big (sg * entry r r' t)) (strs (16 * n + 64)) * 65536 ^ (2 * n + 1) =
     65536 ^ (16 * n + 64) * G1 sg * lprod (fun x => snd x (word16 r (fst x))) slots).
  { intros r. destruct (slots'_ok r) as (HN & HR & HL).
    rewrite (lsum_ext _ (fun r' => lprod (fun x => snd x (word16 r' (fst x))) (slots' r))) by (intros r' _; now rewrite (proj1 (weight_slots r r'))).
    rewrite <- HL. etransitivity; [exact (strs_slots (16 * n + 64) (slots' r) ltac:(lia) HN HR)|]. rewrite <- Z.mul_assoc. apply f_equal.
    unfold slots', slots. rewrite !lprod_app, !lprod_map. rewrite lprod_one. cbn [fst snd]. change (wsum (fun w => wt tm (sg * s w))) with (G1 sg).
    unfold Gs. generalize (G1 sg). intros x. rewrite Z.mul_assoc. apply Z.mul_comm. }
  destruct slots_ok as (HN & HR & HL).
  pose proof (strs_slots (16 * n) slots ltac:(lia) HN HR) as E2. rewrite HL in E2.
  replace (lprod (fun x => wsum (snd x)) slots) with (Hs_ sg ^ n * Hs_ (- sg) ^ n) in E2.
  2:{ unfold slots. rewrite lprod_app, !lprod_map. cbn [fst snd]. change (wsum (fun w => Gs (sg * s w))) with (Hs_ sg). change (wsum (fun w => Gs (- sg * s w))) with (Hs_ (- sg)). rewrite !lprod_const, zlen_zseq by lia. reflexivity. }
  replace (4 * n + 1) with ((2 * n + 1) + 2 * n) by lia. replace (32 * n + 64) with ((16 * n + 64) + 16 * n) by lia.
  rewrite !Z.pow_add_r with (b := _ + _) by lia. rewrite Z.mul_assoc. rewrite <- lsum_scale_r.
  rewrite (lsum_ext _ (fun r => 65536 ^ (16 * n + 64) * G1 sg * lprod (fun x => snd x (word16 r (fst x))) slots)) by (intros; apply E1).
  rewrite lsum_scale. rewrite <- Z.mul_assoc, E2. generalize (65536 ^ (16 * n + 64)) (65536 ^ (16 * n)). intros. ring.
Qed.
(** Chernoff. *)
Lemma tail T : 0 <= T <= big ->
  count (fun rr => T <=? sg * entry (fst rr) (snd rr) t) (list_prod (strs (16 * n)) (strs (16 * n + 64)))
    * (wt big T * 65536 ^ (4 * n + 1)) <= 65536 ^ (32 * n + 64) * (Hs_ sg ^ n * Hs_ (- sg) ^ n * G1 sg).
Proof.
  intros HT. rewrite <- sum_weights, Z.mul_assoc. apply Z.mul_le_mono_nonneg_r; [apply Z.pow_nonneg; lia|].
  rewrite count_lsum, lsum_list_prod, <- lsum_scale_r. apply lsum_le. intros r _. rewrite <- lsum_scale_r. apply lsum_le. intros r' _.
  cbn [fst snd]. pose proof (proj2 (weight_slots r r')) as B. rewrite <- (proj1 (abs_sg _)) in B.
  destruct (Z.leb_spec T (sg * entry r r' t)); cbn [Z.b2z].
  - rewrite Z.mul_1_l. apply wt_mono; lia.
  - pose proof (wt_pos big _ B). lia.
Qed.
End OneEntry.
End Weights.
