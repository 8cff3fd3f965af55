(** Proofs about the Python reference: what its functions compute. *)
From Verif Require Import ZList KeccakSpec ShakeProofs AesSpec UtilSpec UtilProofs Params MatrixSpec EncodeProofs FrodoSpec KemProofs KemWp FrodoFacts Py.

(* ------------------------------------------------------------------ *)
(** ** Loops and lists *)
Lemma pyfor_n_seq {S} (f : Z -> S -> py S) (st : Z -> S) k : forall i,
  (forall a, i <= a < i + Z.of_nat k -> f a (st a) = PyOk (st (a + 1))) -> pyfor_n k i f (st i) = PyOk (st (i + Z.of_nat k)).
Proof.
  induction k as [|k IH]; intros i H; cbn [pyfor_n].
  - f_equal; f_equal; lia.
  - rewrite H by lia. cbn [pybind]. rewrite IH by (intros; apply H; lia). f_equal; f_equal; lia.
Qed.
(** The state before iteration i is [st i]. *)
Lemma pyfor_seq {S} n (f : Z -> S -> py S) (st : Z -> S) s : 0 <= n -> s = st 0 ->
  (forall a, 0 <= a < n -> f a (st a) = PyOk (st (a + 1))) -> pyfor n f s = PyOk (st n).
Proof.
  intros Hn -> H. unfold pyfor. pose proof (pyfor_n_seq f st (Z.to_nat n) 0) as E. rewrite E; [f_equal; f_equal; lia|].
  intros a Ha; apply H; lia.
Qed.
Lemma pyfor_n_ext {S} (f g : Z -> S -> py S) k : forall i s,
  (forall a s, i <= a < i + Z.of_nat k -> f a s = g a s) -> pyfor_n k i f s = pyfor_n k i g s.
Proof.
  induction k as [|k IH]; intros i s H; cbn [pyfor_n]; [reflexivity|]. rewrite H by lia.
  destruct (g i s); cbn [pybind]; [|reflexivity]. apply IH. intros; apply H; lia.
Qed.
Lemma nth_error_ztab {A} n (f : Z -> A) i : 0 <= i < n -> nth_error (ztab n f) (Z.to_nat i) = Some (f i).
Proof.
  intros H. unfold ztab, zseq. rewrite !nth_error_map.
  rewrite (nth_error_nth' _ 0%nat) by (rewrite seq_length; lia). rewrite seq_nth by lia. cbn. f_equal; f_equal; lia.
Qed.
Lemma pyget_ztab {A} n (f : Z -> A) i : 0 <= i < n -> pyget (ztab n f) i = PyOk (f i).
Proof.
  intros H. unfold pyget, pyidx. rewrite zlen_ztab by lia. destruct (Z.ltb_spec i 0); [lia|].
  destruct (Z.leb_spec 0 i); [|lia]. destruct (Z.ltb_spec i n); [|lia]. cbn [andb]. now rewrite nth_error_ztab.
Qed.
Lemma pyget_out {A} (l : list A) k : 0 <= k -> zlen l <= k -> pyget l k = Raise IndexError.
Proof. intros H0 H. unfold pyget, pyidx. destruct (Z.ltb_spec k 0) as [E|_]; [lia|]. destruct (Z.ltb_spec k (zlen l)) as [E|_]; [lia|]. now rewrite andb_false_r. Qed.
Lemma pyget_znth (l : list Z) i : 0 <= i < zlen l -> pyget l i = PyOk (znth l i).
Proof. intros H. rewrite (zlist_ztab l) at 1. now rewrite pyget_ztab. Qed.
Lemma nth_error_ext {A} (l1 l2 : list A) : (forall k, nth_error l1 k = nth_error l2 k) -> l1 = l2.
Proof.
  revert l2. induction l1 as [|x l1 IH]; intros [|y l2] H; [reflexivity|specialize (H O); discriminate|specialize (H O); discriminate|].
  pose proof (H O) as E; cbn in E; inversion E; subst. f_equal. apply IH. intros k; apply (H (Datatypes.S k)).
Qed.
Lemma nth_error_upd {A} (l : list A) n v k : (n < length l)%nat -> nth_error (upd l n v) k = if (k =? n)%nat then Some v else nth_error l k.
Proof.
  revert n k. induction l as [|x l IH]; intros n k H; [cbn in H; lia|]. destruct n, k; cbn; try reflexivity.
  rewrite IH by (cbn in H; lia). reflexivity.
Qed.
Lemma zset_ztab {A} n (f : Z -> A) i v : 0 <= i < n -> zset (ztab n f) i v = ztab n (fun k => if k =? i then v else f k).
Proof.
  intros H. apply nth_error_ext. intros k.
  assert (L : forall g : Z -> A, length (ztab n g) = Z.to_nat n) by (intros g; pose proof (zlen_ztab n g ltac:(lia)); unfold zlen in *; lia).
  unfold zset. destruct (Z.ltb_spec i 0); [lia|]. rewrite nth_error_upd by (rewrite L; lia).
  destruct (Nat.ltb_spec k (Z.to_nat n)).
  - replace k with (Z.to_nat (Z.of_nat k)) by lia. rewrite !nth_error_ztab by lia.
    destruct (Z.eqb_spec (Z.of_nat k) i), (Nat.eqb_spec (Z.to_nat (Z.of_nat k)) (Z.to_nat i)); try lia; reflexivity.
  - rewrite (proj2 (nth_error_None (ztab n _) k)) by (rewrite L; lia).
    rewrite (proj2 (nth_error_None (ztab n _) k)) by (rewrite L; lia). destruct (Nat.eqb_spec k (Z.to_nat i)); [lia|reflexivity].
Qed.
Lemma pyset_ztab {A} n (f : Z -> A) i v : 0 <= i < n -> pyset (ztab n f) i v = PyOk (ztab n (fun k => if k =? i then v else f k)).
Proof.
  intros H. unfold pyset, pyidx. rewrite zlen_ztab by lia. destruct (Z.ltb_spec i 0); [lia|].
  destruct (Z.leb_spec 0 i); [|lia]. destruct (Z.ltb_spec i n); [|lia]. cbn [andb]. now rewrite zset_ztab.
Qed.
Lemma zrep_ztab {A} n (v : A) : zrep n v = ztab n (fun _ => v).
Proof.
  unfold zrep, ztab, zseq. rewrite map_map. generalize 0%nat. induction (Z.to_nat n) as [|k IH]; intros s; cbn; [reflexivity|now rewrite (IH (Datatypes.S s))].
Qed.
Lemma ztab_snoc {A} n (f : Z -> A) : 0 <= n -> ztab (n + 1) f = ztab n f ++ [f n].
Proof.
  intros H. rewrite ztab_app by lia. f_equal. change (ztab 1 (fun i => f (n + i))) with [f (n + 0)]. now rewrite Z.add_0_r.
Qed.
Lemma pylist_ztab {A} n (e : Z -> py A) (g : Z -> A) : 0 <= n -> (forall i, 0 <= i < n -> e i = PyOk (g i)) -> pylist n e = PyOk (ztab n g).
Proof.
  intros Hn H. unfold pylist. apply (pyfor_seq n _ (fun i => ztab i g)); [lia|reflexivity|].
  intros a Ha. rewrite H by lia. cbn [pybind]. now rewrite ztab_snoc by lia.
Qed.

(** Filling an array from the left. *)
Definition pre (n : Z) (v g : Z -> Z) (o : Z) : list Z := ztab n (fun k => if k <? o then v k else g k).
Lemma pre_done n v g : 0 <= n -> pre n v g n = ztab n v.
Proof. intros; apply ztab_ext; intros k Hk. destruct (Z.ltb_spec k n); [reflexivity|lia]. Qed.
Lemma pre_none n v g : ztab n g = pre n v g 0.
Proof. apply ztab_ext; intros k Hk. destruct (Z.ltb_spec k 0); [lia|reflexivity]. Qed.
Lemma pre_set n v g o : 0 <= o < n -> pyset (pre n v g o) o (v o) = PyOk (pre n v g (o + 1)).
Proof.
  intros H. unfold pre. rewrite pyset_ztab by lia. f_equal. apply ztab_ext. intros k Hk.
  destruct (Z.eqb_spec k o) as [->|]; [destruct (Z.ltb_spec o (o + 1)); [reflexivity|lia]|].
  destruct (Z.ltb_spec k o), (Z.ltb_spec k (o + 1)); try lia; reflexivity.
Qed.
Lemma fill_prefix n v g o c (body : Z -> list Z -> py (list Z)) : 0 <= o -> 0 <= c -> o + c <= n ->
  (forall l s, 0 <= l < c -> body l s = pyset s (o + l) (v (o + l))) ->
  pyfor c body (pre n v g o) = PyOk (pre n v g (o + c)).
Proof.
  intros Ho Hc Hn H. apply (pyfor_seq c body (fun l => pre n v g (o + l))); [lia|f_equal; lia|].
  intros a Ha. rewrite H by lia. rewrite pre_set by lia. do 2 f_equal; lia.
Qed.

(* ------------------------------------------------------------------ *)
(** ** Matrices *)
Definition mtab (r c : Z) (f : Z -> Z -> Z) : matrix := ztab r (fun i => ztab c (f i)).
Lemma mtab_ext r c f g : (forall i j, 0 <= i < r -> 0 <= j < c -> f i j = g i j) -> mtab r c f = mtab r c g.
Proof. intros H. apply ztab_ext. intros i Hi. apply ztab_ext. intros j Hj. apply H; lia. Qed.
Lemma mconst_mtab r c v : mconst r c v = mtab r c (fun _ _ => v).
Proof. unfold mconst, mtab. apply ztab_ext. intros; apply zrep_ztab. Qed.
Lemma zlen_mtab r c f : 0 <= r -> zlen (mtab r c f) = r.
Proof. apply zlen_ztab. Qed.
Lemma ncols_mtab r c f : 0 < r -> 0 <= c -> ncols (mtab r c f) = PyOk c.
Proof. intros. unfold ncols, mtab. rewrite pyget_ztab by lia. cbn [pybind]. now rewrite zlen_ztab. Qed.
Lemma pyget2_mtab r c f i j : 0 <= i < r -> 0 <= j < c -> pyget2 (mtab r c f) i j = PyOk (f i j).
Proof. intros. unfold pyget2, mtab. rewrite pyget_ztab by lia. cbn [pybind]. now rewrite pyget_ztab. Qed.
Definition fset (f : Z -> Z -> Z) (i j v : Z) : Z -> Z -> Z := fun a b => if (a =? i) && (b =? j) then v else f a b.
Lemma pyset2_mtab r c f i j v : 0 <= i < r -> 0 <= j < c -> pyset2 (mtab r c f) i j v = PyOk (mtab r c (fset f i j v)).
Proof.
  intros. unfold pyset2, mtab. rewrite pyget_ztab by lia. cbn [pybind]. rewrite pyset_ztab by lia. cbn [pybind].
  rewrite pyset_ztab by lia. f_equal. apply ztab_ext. intros a Ha. unfold fset. destruct (Z.eqb_spec a i) as [->|]; cbn [andb]; reflexivity.
Qed.
(** Filling a matrix row by row; at entry (i,j) the old value is still the initial one. *)
Definition mpre (v g : Z -> Z -> Z) (i j : Z) : Z -> Z -> Z := fun a b => if (a <? i) || ((a =? i) && (b <? j)) then v a b else g a b.
Lemma mfill r c v g (body : Z -> Z -> matrix -> py matrix) : 0 <= r -> 0 <= c ->
  (forall i j h, 0 <= i < r -> 0 <= j < c -> h i j = g i j -> body i j (mtab r c h) = PyOk (mtab r c (fset h i j (v i j)))) ->
  pyfor r (fun i => pyfor c (body i)) (mtab r c g) = PyOk (mtab r c v).
Proof.
  intros Hr Hc H.
  rewrite (pyfor_seq r _ (fun i => mtab r c (mpre v g i 0))); [|lia| |].
  - f_equal. apply mtab_ext. intros i j Hi Hj. unfold mpre. destruct (Z.ltb_spec i r); [reflexivity|lia].
  - apply mtab_ext. intros i j Hi Hj. unfold mpre. destruct (Z.ltb_spec i 0); [lia|]. destruct (Z.ltb_spec j 0); [lia|]. now rewrite andb_false_r.
  - intros i Hi. rewrite (pyfor_seq c _ (fun j => mtab r c (mpre v g i j))); [|lia|reflexivity|].
    + f_equal. apply mtab_ext. intros a b Ha Hb. unfold mpre.
      destruct (Z.ltb_spec a i), (Z.eqb_spec a i), (Z.ltb_spec a (i + 1)), (Z.ltb_spec b c), (Z.eqb_spec a (i + 1)), (Z.ltb_spec b 0); cbn; try lia; reflexivity.
    + intros j Hj. rewrite H; [|lia|lia|unfold mpre; rewrite Z.ltb_irrefl, Z.eqb_refl, Z.ltb_irrefl; reflexivity].
      f_equal. apply mtab_ext. intros a b Ha Hb. unfold fset, mpre.
      destruct (Z.ltb_spec a i), (Z.eqb_spec a i), (Z.ltb_spec b j), (Z.eqb_spec b j), (Z.ltb_spec b (j + 1)); cbn; try lia; subst; reflexivity.
Qed.
Lemma mfill1 r c v g i (body : Z -> matrix -> py matrix) : 0 <= i < r -> 0 <= c ->
  (forall j h, 0 <= j < c -> body j (mtab r c h) = PyOk (mtab r c (fset h i j (v j)))) ->
  pyfor c body (mtab r c g) = PyOk (mtab r c (fun a b => if a =? i then v b else g a b)).
Proof.
  intros Hi Hc H. rewrite (pyfor_seq c _ (fun j => mtab r c (fun a b => if (a =? i) && (b <? j) then v b else g a b))); [|lia| |].
  - f_equal. apply mtab_ext. intros a b Ha Hb. destruct (Z.eqb_spec a i), (Z.ltb_spec b c); cbn; try lia; reflexivity.
  - apply mtab_ext. intros a b Ha Hb. destruct (Z.ltb_spec b 0); [lia|]. now rewrite andb_false_r.
  - intros j Hj. rewrite H by lia. f_equal. apply mtab_ext. intros a b Ha Hb. unfold fset.
    destruct (Z.eqb_spec a i), (Z.ltb_spec b j), (Z.eqb_spec b j), (Z.ltb_spec b (j + 1)); cbn; try lia; subst; reflexivity.
Qed.
(** Row by row, each row in one go. *)
Lemma mrows r c v g (body : Z -> matrix -> py matrix) : 0 <= r ->
  (forall i h, 0 <= i < r -> body i (mtab r c h) = PyOk (mtab r c (fun a b => if a =? i then v i b else h a b))) ->
  pyfor r body (mtab r c g) = PyOk (mtab r c v).
Proof.
  intros Hr H. rewrite (pyfor_seq r _ (fun i => mtab r c (fun a b => if a <? i then v a b else g a b))); [|lia| |].
  - f_equal. apply mtab_ext. intros a b Ha Hb. destruct (Z.ltb_spec a r); [reflexivity|lia].
  - apply mtab_ext. intros a b Ha Hb. destruct (Z.ltb_spec a 0); [lia|reflexivity].
  - intros i Hi. rewrite H by lia. f_equal. apply mtab_ext. intros a b Ha Hb.
    destruct (Z.eqb_spec a i), (Z.ltb_spec a i), (Z.ltb_spec a (i + 1)); try lia; subst; reflexivity.
Qed.

(** The matrix with the rows of a flat list. *)
Definition rows (r c : Z) (l : list Z) : matrix := mtab r c (fun i j => znth l (i * c + j)).
Lemma idx_ok r c i j : 0 <= i < r -> 0 <= j < c -> 0 <= i * c + j < r * c.
Proof. intros. split; [|assert (i * c + c <= r * c) by (replace (i * c + c) with ((i + 1) * c) by lia; apply Z.mul_le_mono_nonneg_r; lia); lia]. apply Z.add_nonneg_nonneg; [apply Z.mul_nonneg_nonneg; lia|lia]. Qed.
Lemma idx_div c i j : 0 <= j < c -> (i * c + j) / c = i /\ (i * c + j) mod c = j.
Proof.
  intros. split; [rewrite Z.add_comm, Z.div_add by lia; rewrite Z.div_small by lia; lia|].
  rewrite Z.add_comm, Z.mod_add by lia. apply Z.mod_small; lia.
Qed.
Lemma rows_tab r c f : 0 <= r -> 0 <= c -> rows r c (ztab (r * c) (fun t => f (t / c) (t mod c))) = mtab r c f.
Proof.
  intros. apply mtab_ext. intros i j Hi Hj. rewrite znth_ztab by (apply idx_ok; lia). destruct (idx_div c i j Hj) as (-> & ->). reflexivity.
Qed.

(* ------------------------------------------------------------------ *)
(** ** Floats *)
Lemma pydiv_pow a k : 0 <= k <= 53 -> Z.abs a <= 2 ^ 53 -> pydiv a (2 ^ k) = PyOk (a, 2 ^ k).
Proof.
  intros Hk Ha. unfold pydiv. assert (0 < 2 ^ k) by (apply Z.pow_pos_nonneg; lia).
  destruct (Z.eqb_spec (2 ^ k) 0); [lia|]. rewrite Z.log2_pow2 by lia. rewrite Z.eqb_refl.
  assert (2 ^ k <= 2 ^ 53) by (apply Z.pow_le_mono_r; lia).
  destruct (Z.leb_spec (Z.abs a) (2 ^ 53)); [|lia]. destruct (Z.ltb_spec 0 (2 ^ k)); [|lia]. destruct (Z.leb_spec (2 ^ k) (2 ^ 53)); [|lia]. reflexivity.
Qed.
Lemma pydiv8 a : 0 <= a <= 2 ^ 53 -> pydiv a 8 = PyOk (a, 8).
Proof. intros. apply (pydiv_pow a 3); lia. Qed.
Lemma pyint8 a : 0 <= a -> pyint (a, 8) = a / 8.
Proof. intros. unfold pyint; cbn [fst snd]. apply Z.quot_div_nonneg; lia. Qed.

(* ------------------------------------------------------------------ *)
(** ** Bits *)
Lemma bit_if x : 0 <= x <= 1 -> (if x =? 0 then 0 else 1) = x.
Proof. intros. destruct (Z.eqb_spec x 0); lia. Qed.
Lemma shiftr_mod2 x l : 0 <= l -> Z.shiftr x l mod 2 = Z.b2z (Z.testbit x l).
Proof.
  intros. rewrite Z.shiftr_div_pow2 by lia. rewrite <- Z.testbit_spec' by lia. reflexivity.
Qed.
Lemma b2z_01 b : 0 <= Z.b2z b <= 1. Proof. destruct b; cbn; lia. Qed.
Lemma bytes_to_bit_array_spec b : bytes_to_bit_array b = PyOk (ztab (8 * zlen b) (lsb_bit 8 b)).
Proof.
  unfold bytes_to_bit_array. pose proof (zlen_nonneg b). rewrite zrep_ztab, (pre_none _ (lsb_bit 8 b)).
  rewrite (pyfor_seq (zlen b) _ (fun i => pre (8 * zlen b) (lsb_bit 8 b) (fun _ => 0) (8 * i))); [|lia|reflexivity|].
  - f_equal. apply pre_done. lia.
  - intros i Hi. rewrite (fill_prefix (8 * zlen b) (lsb_bit 8 b) (fun _ => 0) (8 * i) 8); [do 2 f_equal; lia|lia|lia|lia|].
    intros l s Hl. rewrite pyget_znth by lia. cbn [pybind]. rewrite lsb_bit_at by lia.
    rewrite shiftr_mod2 by lia. rewrite bit_if by apply b2z_01. reflexivity.
Qed.
(** Taking a number apart bit by bit. *)
Lemma bits_loop n tmp : 0 <= n ->
  pyfor n (fun l '(c, tmp) => let* c := pyset c l (tmp mod 2) in PyOk (c, Z.shiftr tmp 1)) (zrep n 0, tmp)
  = PyOk (ztab n (fun l => Z.b2z (Z.testbit tmp l)), Z.shiftr tmp n).
Proof.
  intros Hn. rewrite zrep_ztab, (pre_none _ (fun l => Z.b2z (Z.testbit tmp l))).
  rewrite (pyfor_seq n _ (fun l => (pre n (fun l => Z.b2z (Z.testbit tmp l)) (fun _ => 0) l, Z.shiftr tmp l))); [|lia|now rewrite Z.shiftr_0_r|].
  - now rewrite pre_done by lia.
  - intros l Hl. rewrite shiftr_mod2 by lia.
    pose proof (pre_set n (fun l => Z.b2z (Z.testbit tmp l)) (fun _ => 0) l Hl) as E. cbv beta in E. rewrite E. cbn [pybind].
    now rewrite Z.shiftr_shiftr by lia.
Qed.
Lemma bit_array_to_bytes_spec n b : 0 <= n <= 2 ^ 40 -> (forall k, 0 <= k < 8 * n -> 0 <= b k <= 1) ->
  bit_array_to_bytes (ztab (8 * n) b) = PyOk (ztab n (fun m => zsum 8 (fun t => b (8 * m + t) * 2 ^ t))).
Proof.
  intros Hn Hb. unfold bit_array_to_bytes. rewrite zlen_ztab by lia. rewrite pydiv8 by lia. cbn [pybind].
  rewrite pyint8 by lia. replace (8 * n / 8) with n by (rewrite Z.mul_comm, Z.div_mul; lia).
  set (V := fun m => zsum 8 (fun t => b (8 * m + t) * 2 ^ t)).
  rewrite zrep_ztab, (pre_none n V (fun _ => 0)).
  rewrite (pyfor_seq n _ (fun i => pre n V (fun _ => 0) i)); [now rewrite pre_done by lia|lia|reflexivity|].
  intros i Hi.
  rewrite (pyfor_seq 8 _ (fun l => ztab n (fun a => if a <? i then V a else if a =? i then zsum l (fun t => b (8 * i + t) * 2 ^ t) else 0))); [|lia| |].
  - f_equal. apply ztab_ext. intros a Ha. destruct (Z.ltb_spec a i), (Z.eqb_spec a i), (Z.ltb_spec a (i + 1)); try lia; subst; reflexivity.
  - apply ztab_ext. intros a Ha. destruct (Z.ltb_spec a i), (Z.eqb_spec a i); try lia; subst; reflexivity.
  - intros l Hl. rewrite pyget_ztab by lia. cbn [pybind]. pose proof (Hb (8 * i + l) ltac:(lia)) as H01.
    assert (Bd : 0 <= zsum l (fun t => b (8 * i + t) * 2 ^ t) < 2 ^ l) by (apply lsb_sum_bound; [lia|intros; apply Hb; lia]).
    destruct (Z.eqb_spec (b (8 * i + l)) 0) as [E|E].
    + f_equal. apply ztab_ext. intros a Ha. rewrite zsum_succ by lia. rewrite E. rewrite Z.mul_0_l, Z.add_0_r. reflexivity.
    + assert (E1 : b (8 * i + l) = 1) by lia. rewrite pyget_ztab by lia. cbn [pybind]. rewrite Z.ltb_irrefl, Z.eqb_refl.
      assert (EL : Z.lor (zsum l (fun t => b (8 * i + t) * 2 ^ t)) (Z.shiftl 1 l) = zsum (l + 1) (fun t => b (8 * i + t) * 2 ^ t)).
      { rewrite zsum_succ by lia. rewrite E1, Z.mul_1_l. rewrite Z.shiftl_1_l. set (x := zsum l _) in *.
        assert (EA : Z.land x (2 ^ l) = 0).
        { apply Z.bits_inj'. intros k Hk. rewrite Z.land_spec, Z.bits_0, Z.pow2_bits_eqb by lia.
          destruct (Z.eqb_spec l k) as [<-|]; [|apply andb_false_r]. assert (Z.testbit x l = false) as -> by (apply Z.testbit_false; [lia|]; rewrite Z.div_small by lia; reflexivity). reflexivity. }
        rewrite <- Z.lxor_lor by exact EA. rewrite <- Z.add_nocarry_lxor by exact EA. reflexivity. }
      rewrite EL. unfold pybyte.
      assert (Bd2 : 0 <= zsum (l + 1) (fun t => b (8 * i + t) * 2 ^ t) < 2 ^ (l + 1)) by (apply lsb_sum_bound; [lia|intros; apply Hb; lia]).
      assert (2 ^ (l + 1) <= 2 ^ 8) by (apply Z.pow_le_mono_r; lia). change (2 ^ 8) with 256 in *.
      destruct (Z.leb_spec 0 (zsum (l + 1) (fun t => b (8 * i + t) * 2 ^ t))); [|lia].
      destruct (Z.ltb_spec (zsum (l + 1) (fun t => b (8 * i + t) * 2 ^ t)) 256); [|lia]. cbn [andb pybind].
      rewrite pyset_ztab by lia. f_equal. apply ztab_ext. intros a Ha.
      destruct (Z.eqb_spec a i) as [->|]; [|reflexivity]. rewrite Z.ltb_irrefl. reflexivity.
Qed.

(* ------------------------------------------------------------------ *)
(** ** Packing and unpacking *)
Lemma znth_bits_of_bytes b k : 0 <= k < 8 * zlen b -> znth (bits_of_bytes b) k = stream_bit 8 b k.
Proof. intros. unfold bits_of_bytes. rewrite znth_ztab by lia. reflexivity. Qed.
Lemma zlen_bits_of_bytes b : zlen (bits_of_bytes b) = 8 * zlen b.
Proof. pose proof (zlen_nonneg b). unfold bits_of_bytes. apply zlen_ztab. lia. Qed.

Section WithX.
Variables (X : frodo).
Hypothesis HX : 1 <= fB X < fD X /\ fD X <= 16 /\ fB X <= 8 /\ fq X = 2 ^ fD X.
Let D := fD X.
Let B := fB X.
Let q := fq X.
Lemma qpos : 0 < q. Proof. unfold q. destruct HX as (_ & _ & _ & ->). apply Z.pow_pos_nonneg; lia. Qed.

(** pack of the matrix with the rows of l is the packed bit string of l. *)
Lemma py_pack_spec r c l : 0 < r -> 0 < c -> zlen l = r * c -> (D * zlen l) mod 8 = 0 ->
  py_pack X (rows r c l) = PyOk (pack_spec D (D * zlen l / 8) l).
Proof.
  intros Hr Hc Hl H8. unfold py_pack, rows. rewrite zlen_mtab by lia. rewrite ncols_mtab by lia. cbn [pybind].
  assert (Hrc : 0 <= r * c) by (apply Z.mul_nonneg_nonneg; lia).
  assert (HD : 1 < D <= 16) by (unfold D; lia).
  fold D. set (L := D * r * c).
  assert (EL : L = D * (r * c)) by (unfold L; ring).
  assert (HL : 0 <= L) by (rewrite EL; apply Z.mul_nonneg_nonneg; lia).
  set (V := stream_bit D l).
  rewrite (zrep_ztab L), (pre_none L V (fun _ => 0)).
  rewrite (pyfor_seq r _ (fun i => pre L V (fun _ => 0) (i * c * D))); [|lia|reflexivity|].
  2:{ intros i Hi. rewrite (pyfor_seq c _ (fun j => pre L V (fun _ => 0) ((i * c + j) * D))); [|lia|do 2 f_equal; lia|].
    - do 2 f_equal; ring.
    - intros j Hj. rewrite pyget2_mtab by lia. cbn [pybind]. rewrite bits_loop by lia. cbn [pybind fst].
      pose proof (idx_ok r c i j Hi Hj) as Hix.
      assert ((i * c + j) * D + D <= L). { rewrite EL. replace ((i * c + j) * D + D) with ((i * c + j + 1) * D) by ring. rewrite (Z.mul_comm D). apply Z.mul_le_mono_nonneg_r; lia. }
      rewrite (fill_prefix L V (fun _ => 0) ((i * c + j) * D) D); [do 2 f_equal; ring|apply Z.mul_nonneg_nonneg; lia|lia|lia|].
      intros k s Hk. rewrite pyget_ztab by lia. cbn [pybind]. rewrite bit_if by apply b2z_01.
      f_equal. unfold V. rewrite (Z.mul_comm _ D), stream_bit_at by lia. reflexivity. }
  cbn [pybind]. replace (r * c * D) with L by (rewrite EL; ring). rewrite pre_done by lia.
  unfold bits_to_bytes. rewrite zlen_ztab by lia. rewrite EL, <- Hl, H8. cbn [Z.eqb].
  f_equal. unfold pack_spec, repack. apply ztab_ext. intros m Hm. apply zsum_ext. intros t Ht.
  rewrite znth_ztab; [reflexivity|]. rewrite EL, <- Hl in HL.
  pose proof (Z.div_mod (D * zlen l) 8 ltac:(lia)). lia.
Qed.

Lemma py_unpack_spec r c b : 0 <= r -> 0 < c -> D * (r * c) <= 8 * zlen b ->
  py_unpack X b r c = PyOk (rows r c (unpack_spec D (r * c) b)).
Proof.
  intros Hr Hc Hb. assert (HD : 1 < D <= 16) by (unfold D; lia).
  unfold py_unpack. fold D. rewrite mconst_mtab.
  rewrite (mfill r c (fun i j => zsum D (fun t => stream_bit 8 b (D * (i * c + j) + t) * 2 ^ (D - 1 - t)))); [|lia|lia|].
  - f_equal. unfold rows, unpack_spec, repack. apply mtab_ext. intros i j Hi Hj.
    rewrite znth_ztab by (apply idx_ok; lia). reflexivity.
  - intros i j h Hi Hj Hh. pose proof (idx_ok r c i j Hi Hj) as Hix.
    assert (D * (i * c + j) + D <= D * (r * c)). { replace (D * (i * c + j) + D) with (D * (i * c + j + 1)) by ring. apply Z.mul_le_mono_nonneg_l; lia. }
    assert (0 <= D * (i * c + j)) by (apply Z.mul_nonneg_nonneg; lia).
    set (f := fun t => stream_bit 8 b (D * (i * c + j) + t) * 2 ^ (D - 1 - t)).
    rewrite (pyfor_seq D _ (fun l => mtab r c (fset h i j (zsum l f)))); [reflexivity|lia| |].
    + apply mtab_ext. intros a d Ha Hd. unfold fset. destruct (Z.eqb_spec a i), (Z.eqb_spec d j); cbn; subst; try reflexivity. now rewrite Hh.
    + intros l Hl. rewrite pyget_znth by (rewrite zlen_bits_of_bytes; lia). rewrite znth_bits_of_bytes by lia. cbn [pybind].
      rewrite zsum_succ by lia. fold (f l). rewrite (Z.mul_comm (i * c + j) D).
      pose proof (stream_bit_range 8 b (D * (i * c + j) + l)) as R. unfold f at 4.
      destruct (Z.eqb_spec (stream_bit 8 b (D * (i * c + j) + l)) 0) as [E|E].
      * unfold f at 2. rewrite E. now rewrite Z.mul_0_l, Z.add_0_r.
      * assert (E1 : stream_bit 8 b (D * (i * c + j) + l) = 1) by lia.
        rewrite pyget2_mtab by lia. cbn [pybind]. rewrite pyset2_mtab by lia. f_equal. apply mtab_ext. intros a d Ha Hd.
        unfold fset. rewrite !Z.eqb_refl. cbn [andb]. unfold f at 3. rewrite E1, Z.mul_1_l.
        destruct ((a =? i) && (d =? j)); reflexivity.
Qed.

(* ------------------------------------------------------------------ *)
(** ** Encoding and decoding *)
Lemma py_encode_spec mu : 8 * B <= zlen mu -> mbar X = 8 -> nbar X = 8 ->
  py_encode X mu = PyOk (rows 8 8 (encode_spec D B mu)).
Proof.
  intros Hmu Hm Hn. unfold py_encode. rewrite bytes_to_bit_array_spec. cbn [pybind]. rewrite Hm, Hn. fold B.
  assert (HB : 1 <= B <= 8 /\ B < D <= 16) by (unfold B, D; lia).
  rewrite mconst_mtab.
  rewrite (mfill 8 8 (fun i j => znth (encode_spec D B mu) (i * 8 + j))); [reflexivity|lia|lia|].
  intros i j h Hi Hj Hh.
  set (f := fun t => lsb_bit 8 mu (B * (i * 8 + j) + t) * 2 ^ t).
  assert (0 <= B * (i * 8 + j)) by (apply Z.mul_nonneg_nonneg; lia).
  assert (B * (i * 8 + j) + B <= B * 64). { replace (B * (i * 8 + j) + B) with (B * (i * 8 + j + 1)) by ring. apply Z.mul_le_mono_nonneg_l; lia. }
  rewrite (pyfor_seq B _ (fun l => zsum l f)); [|lia|reflexivity|].
  - cbn [pybind]. destruct HX as (_ & _ & _ & ->). fold D.
    rewrite pydiv_pow; [|lia|]. 2:{ rewrite Z.abs_eq by (apply Z.pow_nonneg; lia). apply Z.pow_le_mono_r; lia. }
    cbn [pybind]. unfold pyint; cbn [fst snd]. rewrite Z.quot_div_nonneg by (apply Z.pow_nonneg || apply Z.pow_pos_nonneg; lia).
    rewrite <- Z.pow_sub_r by lia. rewrite pyset2_mtab by lia. f_equal. f_equal. f_equal.
    unfold encode_spec, regroup. rewrite map_ztab. rewrite znth_ztab by lia. reflexivity.
  - intros l Hl. rewrite pyget_ztab by lia. cbn [pybind]. rewrite zsum_succ by lia.
    rewrite (Z.mul_comm (i * 8 + j)). assert (Ef : f l = lsb_bit 8 mu (B * (i * 8 + j) + l) * 2 ^ l) by reflexivity. pose proof (lsb_bit_range 8 mu (B * (i * 8 + j) + l)).
    destruct (Z.eqb_spec (lsb_bit 8 mu (B * (i * 8 + j) + l)) 0) as [E|E]; f_equal.
    + rewrite E in Ef. lia.
    + replace (lsb_bit 8 mu (B * (i * 8 + j) + l)) with 1 in Ef by lia. lia.
Qed.

(** If the last of the needed bits is missing, the loop raises IndexError. *)
Lemma pyfor_n_raises {T} (I : T -> Prop) e (f : Z -> T -> py T) k : forall i s m, i <= m < i + Z.of_nat k -> I s ->
  (forall j s, i <= j < i + Z.of_nat k -> I s -> f j s = Raise e \/ exists s', f j s = PyOk s' /\ I s') ->
  (forall s, I s -> f m s = Raise e) -> pyfor_n k i f s = Raise e.
Proof.
  induction k as [|k IH]; intros i s m Hm Hs Hf Hr; [lia|]. cbn [pyfor_n].
  destruct (Hf i s ltac:(lia) Hs) as [E|(s' & E & Hs')]; rewrite E; [reflexivity|]. cbn [pybind].
  destruct (Z.eq_dec i m) as [<-|Hne]; [rewrite (Hr s Hs) in E; discriminate|].
  apply (IH (i + 1) s' m); [lia|exact Hs'| |exact Hr]. intros j s0 Hj. apply Hf. lia.
Qed.
Lemma pyfor_raises {T} (I : T -> Prop) e n (f : Z -> T -> py T) s m : 0 <= m < n -> I s ->
  (forall j s, 0 <= j < n -> I s -> f j s = Raise e \/ exists s', f j s = PyOk s' /\ I s') ->
  (forall s, I s -> f m s = Raise e) -> pyfor n f s = Raise e.
Proof. intros Hm Hs Hf. apply (pyfor_n_raises I e f (Z.to_nat n) 0 s m); [lia|exact Hs|]. intros j s0 Hj. apply Hf. lia. Qed.
Lemma pyfor_or {T} (I : T -> Prop) e (f : Z -> T -> py T) k : forall i s, I s ->
  (forall j s, i <= j < i + Z.of_nat k -> I s -> f j s = Raise e \/ exists s', f j s = PyOk s' /\ I s') ->
  pyfor_n k i f s = Raise e \/ exists s', pyfor_n k i f s = PyOk s' /\ I s'.
Proof.
  induction k as [|k IH]; intros i s Hs Hf; [right; exists s; auto|]. cbn [pyfor_n].
  destruct (Hf i s ltac:(lia) Hs) as [E|(s' & E & Hs')]; rewrite E; [left; reflexivity|]. cbn [pybind].
  apply IH; [exact Hs'|]. intros j s0 Hj. apply Hf. lia.
Qed.
Lemma py_encode_short mu : zlen mu < 8 * B -> mbar X = 8 -> nbar X = 8 -> py_encode X mu = Raise IndexError.
Proof.
  intros Hmu Hm Hn. unfold py_encode. rewrite bytes_to_bit_array_spec. cbn [pybind]. rewrite Hm, Hn. fold B.
  assert (HB : 1 <= B <= 8 /\ B < D <= 16) by (unfold B, D; lia).
  pose proof (zlen_nonneg mu) as Hn0. set (bits := ztab (8 * zlen mu) (lsb_bit 8 mu)).
  assert (Lb : zlen bits = 8 * zlen mu) by (apply zlen_ztab; lia).
  set (bit := fun i j (l tmp : Z) => let* x := pyget bits ((i * 8 + j) * B + l) in PyOk (if x =? 0 then tmp else tmp + 2 ^ l)).
  assert (Hbit : forall i j l tmp, 0 <= i < 8 -> 0 <= j < 8 -> 0 <= l < B -> True -> bit i j l tmp = Raise IndexError \/ exists t', bit i j l tmp = PyOk t' /\ True).
  { intros i j l tmp Hi Hj Hl _. unfold bit. assert (0 <= (i * 8 + j) * B) by (apply Z.mul_nonneg_nonneg; lia).
    destruct (Z_lt_ge_dec ((i * 8 + j) * B + l) (8 * zlen mu)) as [E|E].
    - right. unfold bits. rewrite pyget_ztab by lia. cbn [pybind]. eexists; split; [reflexivity|exact Logic.I].
    - left. rewrite pyget_out by lia. reflexivity. }
  set (cell := fun i j K => let* tmp := pyfor B (bit i j) 0 in let* h := pydiv (fq X) (2 ^ B) in pyset2 K i j (tmp * pyint h)).
  set (Im := fun K : matrix => exists h, K = mtab 8 8 h).
  assert (Hcell : forall i j K, 0 <= i < 8 -> 0 <= j < 8 -> Im K -> cell i j K = Raise IndexError \/ exists K', cell i j K = PyOk K' /\ Im K').
  { intros i j K Hi Hj (h & ->). unfold cell.
    destruct (pyfor_or (fun _ => True) IndexError (bit i j) (Z.to_nat B) 0 0 Logic.I) as [E|(t & E & _)].
    - intros l tmp Hl. apply Hbit; lia.
    - left. unfold pyfor. rewrite E. reflexivity.
    - right. unfold pyfor. rewrite E. cbn [pybind]. destruct HX as (_ & _ & _ & ->). fold D.
      rewrite pydiv_pow; [|lia|]. 2:{ rewrite Z.abs_eq by (apply Z.pow_nonneg; lia). apply Z.pow_le_mono_r; lia. }
      cbn [pybind]. rewrite pyset2_mtab by lia. eexists; split; [reflexivity|]. eexists; reflexivity. }
  assert (Hrow : forall i K, 0 <= i < 8 -> Im K -> pyfor 8 (cell i) K = Raise IndexError \/ exists K', pyfor 8 (cell i) K = PyOk K' /\ Im K').
  { intros i K Hi HK. apply pyfor_or; [exact HK|]. intros j K' Hj. apply Hcell; lia. }
  apply (pyfor_raises Im IndexError 8 (fun i K => pyfor 8 (cell i) K) _ 7); [lia| | |].
  - eexists. apply mconst_mtab.
  - intros i K Hi. apply Hrow; exact Hi.
  - intros K HK. apply (pyfor_raises Im IndexError 8 (cell 7) K 7); [lia|exact HK| |].
    + intros j K' Hj. apply Hcell; lia.
    + intros K' _. unfold cell. rewrite (pyfor_raises (fun _ => True) IndexError B (bit 7 7) 0 (B - 1)); [reflexivity|lia|exact Logic.I| |].
      * intros l tmp Hl. apply Hbit; lia.
      * intros tmp _. unfold bit. rewrite pyget_out by lia. reflexivity.
Qed.

(** What Python's decode computes for one entry: round half to even. *)
Definition dc_even (D B c : Z) : Z := pyround (c * 2 ^ B, 2 ^ D) mod 2 ^ B.
Lemma py_decode_spec M : zlen M = 64 -> inrange (2 ^ D) M -> mbar X = 8 -> nbar X = 8 ->
  py_decode X (rows 8 8 M) = PyOk (regroup B 8 (8 * B) (map (dc_even D B) M)).
Proof.
  intros HM HR Hm Hn. unfold py_decode. rewrite Hm, Hn. fold B.
  assert (HB : 1 <= B <= 8 /\ B < D <= 16) by (unfold B, D; lia).
  set (l := map (dc_even D B) M).
  set (V := lsb_bit B l). replace (B * 8 * 8) with (B * 64) by lia.
  rewrite (zrep_ztab (B * 64)), (pre_none (B * 64) V (fun _ => 0)).
  rewrite (pyfor_seq 8 _ (fun i => pre (B * 64) V (fun _ => 0) (i * 8 * B))); [|lia|reflexivity|].
  2:{ intros i Hi. rewrite (pyfor_seq 8 _ (fun j => pre (B * 64) V (fun _ => 0) ((i * 8 + j) * B))); [|lia|do 2 f_equal; lia|].
    - do 2 f_equal; lia.
    - intros j Hj. unfold rows. rewrite pyget2_mtab by lia. cbn [pybind]. destruct HX as (_ & _ & _ & ->). fold D.
      assert (Hx : 0 <= znth M (i * 8 + j) < 2 ^ D) by (apply (inrange_znth _ _ _ HR); lia).
      assert (2 ^ D <= 2 ^ 16) by (apply Z.pow_le_mono_r; lia). assert (2 ^ B <= 2 ^ 8) by (apply Z.pow_le_mono_r; lia).
      assert (0 < 2 ^ B) by (apply Z.pow_pos_nonneg; lia).
      rewrite pydiv_pow; [|lia|].
      2:{ rewrite Z.abs_eq by (apply Z.mul_nonneg_nonneg; lia). transitivity (2 ^ 16 * 2 ^ 8); [apply Z.mul_le_mono_nonneg; lia|reflexivity || lia]. }
      cbn [pybind]. fold (dc_even D B (znth M (i * 8 + j))). rewrite bits_loop by lia. cbn [pybind fst].
      assert (El : dc_even D B (znth M (i * 8 + j)) = znth l (i * 8 + j)). { unfold l. now rewrite znth_map by lia. }
      assert (B * (i * 8 + j) + B <= B * 64). { replace (B * (i * 8 + j) + B) with (B * (i * 8 + j + 1)) by ring. apply Z.mul_le_mono_nonneg_l; lia. }
      assert (0 <= B * (i * 8 + j)) by (apply Z.mul_nonneg_nonneg; lia).
      rewrite (fill_prefix (B * 64) V (fun _ => 0) ((i * 8 + j) * B) B); [do 2 f_equal; ring|lia|lia|lia|].
      intros k s Hk. rewrite pyget_ztab by lia. cbn [pybind]. rewrite bit_if by apply b2z_01.
      f_equal. unfold V. rewrite (Z.mul_comm _ B), lsb_bit_at by lia. now rewrite El. }
  cbn [pybind]. replace (8 * 8 * B) with (B * 64) by lia. rewrite pre_done by lia.
  replace (B * 64) with (8 * (8 * B)) by lia. rewrite bit_array_to_bytes_spec; [reflexivity|lia|]. intros; apply lsb_bit_range.
Qed.

(* ------------------------------------------------------------------ *)
(** ** Sampling *)
Lemma py_sample_spec r : 1 <= zlen (T_chi X) -> 0 <= r -> py_sample X r = PyOk (sample_spec (T_chi X) r).
Proof.
  clear HX.
  intros HT Hr. unfold py_sample. rewrite Z.shiftr_div_pow2 by lia. change (2 ^ 1) with 2.
  rewrite (pyfor_seq _ _ (fun k => zsum k (fun i => Z.b2z (znth (T_chi X) i <? r / 2)))); [|lia|reflexivity|].
  - cbn [pybind]. unfold sample_spec. rewrite sample_mag_zsum by lia. f_equal.
    rewrite Zmod_even. destruct (Z.even r); [change ((-1) ^ 0) with 1|change ((-1) ^ 1) with (-1)]; ring.
  - intros a Ha. rewrite pyget_znth by lia. cbn [pybind]. rewrite zsum_succ by lia.
    destruct (znth (T_chi X) a <? r / 2); cbn [Z.b2z]; f_equal; lia.
Qed.
Lemma py_sample_matrix_spec r n1 n2 : 1 <= zlen (T_chi X) -> inrange 65536 r -> 0 <= n1 -> 0 <= n2 -> n1 * n2 <= zlen r ->
  py_sample_matrix X r n1 n2 = PyOk (rows n1 n2 (map (sample_spec (T_chi X)) r)).
Proof.
  clear HX.
  intros HT HR H1 H2 Hr. unfold py_sample_matrix. rewrite mconst_mtab.
  rewrite (mfill n1 n2 (fun i j => znth (map (sample_spec (T_chi X)) r) (i * n2 + j))); [reflexivity|lia|lia|].
  intros i j h Hi Hj _. pose proof (idx_ok n1 n2 i j Hi Hj). rewrite pyget_znth by lia. cbn [pybind].
  pose proof (inrange_znth _ _ (i * n2 + j) HR ltac:(lia)). rewrite py_sample_spec by lia. cbn [pybind]. rewrite pyset2_mtab by lia.
  now rewrite znth_map by lia.
Qed.

(* ------------------------------------------------------------------ *)
(** ** Matrix arithmetic *)
Ltac pg := repeat (rewrite pyget2_mtab by lia; cbn [pybind]).
Lemma matrix_mul_spec r m c f g : 0 < r -> 0 < m -> 0 < c ->
  matrix_mul X (mtab r m f) (mtab m c g) = PyOk (mtab r c (fun i j => zsum m (fun k => f i k * g k j) mod q)).
Proof.
  clear HX.
  intros Hr Hm Hc. unfold matrix_mul. rewrite !ncols_mtab by lia. cbn [pybind]. rewrite !zlen_mtab by lia. rewrite Z.eqb_refl. cbn [pyassert pybind].
  rewrite mconst_mtab. apply mfill; [lia|lia|]. intros i j h Hi Hj Hh.
  rewrite (pyfor_seq m _ (fun l => mtab r c (fset h i j (zsum l (fun k => f i k * g k j))))); [|lia| |].
  - cbn [pybind]. rewrite pyget2_mtab by lia. cbn [pybind]. rewrite pyset2_mtab by lia. f_equal. apply mtab_ext. intros a b Ha Hb.
    unfold fset. rewrite !Z.eqb_refl. cbn [andb]. fold q. destruct ((a =? i) && (b =? j)); reflexivity.
  - apply mtab_ext. intros a b Ha Hb. unfold fset. destruct (Z.eqb_spec a i), (Z.eqb_spec b j); cbn; subst; try reflexivity. now rewrite Hh.
  - intros l Hl. pg.
    rewrite pyset2_mtab by lia. f_equal. apply mtab_ext. intros a b Ha Hb.
    unfold fset. rewrite !Z.eqb_refl. cbn [andb]. rewrite zsum_succ by lia. destruct ((a =? i) && (b =? j)); reflexivity.
Qed.
Lemma matrix_zip_spec op r c f g : 0 < r -> 0 <= c ->
  matrix_zip op X (mtab r c f) (mtab r c g) = PyOk (mtab r c (fun i j => op (f i j) (g i j) mod q)).
Proof.
  clear HX.
  intros Hr Hc. unfold matrix_zip. rewrite !ncols_mtab by lia. cbn [pybind]. rewrite !zlen_mtab by lia. rewrite !Z.eqb_refl. cbn [andb pyassert pybind].
  apply pylist_ztab; [lia|]. intros i Hi. apply pylist_ztab; [lia|]. intros j Hj. pg. reflexivity.
Qed.
Lemma matrix_transpose_spec r c f : 0 < r -> 0 <= c -> matrix_transpose (mtab r c f) = PyOk (mtab c r (fun i j => f j i)).
Proof.
  clear HX.
  intros Hr Hc. unfold matrix_transpose. rewrite ncols_mtab by lia. cbn [pybind]. rewrite zlen_mtab by lia.
  apply pylist_ztab; [lia|]. intros i Hi. apply pylist_ztab; [lia|]. intros j Hj. now rewrite pyget2_mtab by lia.
Qed.
End WithX.

(* ------------------------------------------------------------------ *)
(** ** Generation of A *)
Local Opaque AES128 SHAKE128 SHAKE256.
Lemma zlen_AES128 k b : zlen (AES128 k b) = 16.
Proof.
  Local Transparent AES128. unfold AES128, Cipher_spec, AddRoundKey_spec, xorlist. rewrite zlen_ztab by apply zlen_nonneg.
  apply zlen_ztab; lia.
Qed.
Local Opaque AES128.
Lemma pack_H_ok buf off v : 0 <= off -> off + 2 <= zlen buf -> 0 <= v < 65536 ->
  pack_H buf off v = PyOk (zset (zset buf off (v mod 256)) (off + 1) (v / 256)).
Proof.
  intros. unfold pack_H. destruct (Z.leb_spec 0 off); [|lia]. destruct (Z.leb_spec (off + 2) (zlen buf)); [|lia].
  destruct (Z.leb_spec 0 v); [|lia]. destruct (Z.ltb_spec v 65536); [reflexivity|lia].
Qed.
Lemma unpack_H_ok buf k : 0 <= k -> 2 * k + 2 <= zlen buf -> unpack_H buf (2 * k) = PyOk (word16 buf k).
Proof.
  intros. unfold unpack_H. destruct (Z.leb_spec 0 (2 * k)); [|lia]. destruct (Z.leb_spec (2 * k + 2) (zlen buf)); [|lia]. reflexivity.
Qed.
Lemma le16_small v : 0 <= v < 65536 -> le16 v = [v mod 256; v / 256].
Proof. intros. unfold le16. do 2 f_equal. apply Z.mod_small. dlia. Qed.
Lemma genAES_spec X seedA : 0 < fn X <= 32768 -> fn X mod 8 = 0 -> zlen seedA = 16 ->
  py_genAES128 X seedA = PyOk (mtab (fn X) (fn X) (fun i j => A_aes seedA i j mod fq X)).
Proof.
  intros Hn H8 Hs. unfold py_genAES128. set (n := fn X) in *. rewrite mconst_mtab.
  apply mrows; [lia|]. intros i h Hi. unfold pyfor8.
  replace ((n + 7) / 8) with (n / 8) by dlia.
  set (v := fun b => A_aes seedA i b mod fq X).
  rewrite (pyfor_seq (n / 8) _ (fun m => mtab n n (fun a b => if (a =? i) && (b <? 8 * m) then v b else h a b))); [|dlia| |].
  - f_equal. apply mtab_ext. intros a b Ha Hb. replace (8 * (n / 8)) with n by dlia.
    destruct (Z.eqb_spec a i), (Z.ltb_spec b n); cbn; try lia; subst; reflexivity.
  - apply mtab_ext. intros a b Ha Hb. destruct (Z.ltb_spec b (8 * 0)); [lia|]. now rewrite andb_false_r.
  - intros m Hm. assert (8 * m + 8 <= n) by dlia.
    rewrite pack_H_ok by (rewrite ?zlen_zrep by lia; lia). cbn [pybind]. rewrite pack_H_ok by (rewrite ?zlen_zset, ?zlen_zrep by lia; lia). cbn [pybind].
    match goal with |- context [lib_aes128 seedA ?b] => set (blk := b) end.
    assert (Eb : blk = le16 i ++ le16 (8 * m) ++ zrep 12 0) by (rewrite !le16_small by lia; reflexivity).
    unfold lib_aes128. rewrite Hs. replace (zlen blk) with 16 by (rewrite Eb; reflexivity). cbn [Z.eqb Pos.eqb andb pybind].
    rewrite (pyfor_seq 8 _ (fun k => mtab n n (fun a b => if (a =? i) && (b <? 8 * m + k) then v b else h a b))); [|lia| |].
    + f_equal. apply mtab_ext. intros a b Ha Hb. now replace (8 * m + 8) with (8 * (m + 1)) by lia.
    + apply mtab_ext. intros a b Ha Hb. now rewrite Z.add_0_r.
    + intros k Hk. rewrite unpack_H_ok by (rewrite ?zlen_AES128; lia). cbn [pybind].
      rewrite pyset2_mtab by lia. f_equal. apply mtab_ext. intros a b Ha Hb. unfold fset.
      assert (Ev : word16 (AES128 seedA blk) k mod fq X = v (8 * m + k)).
      { unfold v, A_aes. replace ((8 * m + k) / 8) with m by dlia. replace ((8 * m + k) mod 8) with k by dlia. now rewrite Eb. }
      rewrite Ev. destruct (Z.eqb_spec a i), (Z.ltb_spec b (8 * m + k)), (Z.eqb_spec b (8 * m + k)), (Z.ltb_spec b (8 * m + (k + 1))); cbn; try lia; subst; reflexivity.
Qed.
Lemma zlen_SHAKE128 M k : 0 <= k -> zlen (SHAKE128 M k) = k. Proof. apply (zlen_SHAKE_r 168). Qed.
Lemma genSHAKE_spec X seedA : 0 < fn X <= 32768 ->
  py_genSHAKE128 X seedA = PyOk (mtab (fn X) (fn X) (fun i j => A_shake (fn X) seedA i j mod fq X)).
Proof.
  intros Hn. unfold py_genSHAKE128. set (n := fn X) in *. rewrite mconst_mtab.
  apply mrows; [lia|]. intros i h Hi.
  rewrite pack_H_ok by (rewrite ?zlen_zrep by lia; lia). cbn [pybind].
  match goal with |- context [lib_shake Shake128 (?b ++ seedA)] => set (pre2 := b) end.
  assert (Eb : pre2 = le16 i) by (rewrite le16_small by lia; reflexivity).
  rewrite pydiv8 by lia. cbn [pybind]. rewrite pyint8 by lia. replace (16 * n / 8) with (2 * n) by dlia. cbn [lib_shake].
  rewrite (pylist_ztab n _ (fun j => A_shake n seedA i j)); [|lia|].
  2:{ intros j Hj. rewrite unpack_H_ok by (rewrite ?zlen_SHAKE128; lia). now rewrite Eb. }
  cbn [pybind]. rewrite (mfill1 n n (fun j => A_shake n seedA i j mod fq X) h i); [reflexivity|lia|lia|].
  intros j h' Hj. rewrite pyget_ztab by lia. cbn [pybind]. now rewrite pyset2_mtab by lia.
Qed.

(* ------------------------------------------------------------------ *)
(** ** Bit strings of bytes *)
Lemma bits_of_bytes_app a b : bits_of_bytes (a ++ b) = bits_of_bytes a ++ bits_of_bytes b.
Proof.
  pose proof (zlen_nonneg a). pose proof (zlen_nonneg b).
  unfold bits_of_bytes. rewrite zlen_app. rewrite Z.mul_add_distr_l, ztab_app by lia. f_equal.
  - apply ztab_ext. intros k Hk. rewrite znth_app1; [reflexivity|dlia].
  - apply ztab_ext. intros k Hk. replace ((8 * zlen a + k) / 8) with (zlen a + k / 8) by dlia.
    replace ((8 * zlen a + k) mod 8) with (k mod 8) by dlia. rewrite znth_app2 by dlia. do 3 f_equal. lia.
Qed.
Lemma byte_bits b off m : bytes_ok b -> 0 <= m < zlen b -> off = 8 * m ->
  zsum 8 (fun t => znth (bits_of_bytes b) (off + t) * 2 ^ (7 - t)) = znth b m.
Proof.
  intros Hb Hm ->. pose proof (inrange_znth _ _ m Hb Hm) as Hx.
  rewrite (zsum_ext 8 _ (fun t => Z.b2z (Z.testbit (znth b m) (0 + 8 - 1 - t)) * 2 ^ (8 - 1 - t))).
  - rewrite <- zsum_bits by lia. rewrite Z.shiftr_0_r. apply Z.mod_small. change (2 ^ 8) with 256; lia.
  - intros t Ht. rewrite (znth_bits_of_bytes b (8 * m + t)) by lia. rewrite stream_bit_at by lia. reflexivity.
Qed.
Lemma bits_to_bytes_of b : bytes_ok b -> bits_to_bytes (bits_of_bytes b) = PyOk b.
Proof.
  intros Hb. unfold bits_to_bytes. rewrite zlen_bits_of_bytes. rewrite Z.mul_comm, Z.mod_mul, Z.div_mul by lia. cbn [Z.eqb].
  f_equal. symmetry. rewrite (zlist_ztab b) at 1. apply ztab_ext. intros m Hm. symmetry; now apply byte_bits.
Qed.
Lemma bits_intle16_ok x : -32768 <= x < 32768 -> bits_intle16 x = PyOk (bits_of_bytes (le16 (x mod 65536))).
Proof.
  intros. unfold bits_intle16. destruct (Z.leb_spec (-32768) x); [|lia]. destruct (Z.ltb_spec x 32768); [|lia]. cbn [andb].
  rewrite le16_small by (apply Z.mod_pos_bound; lia). reflexivity.
Qed.
Lemma read_intle16_ok b t : bytes_ok b -> 0 <= t -> 2 * t + 2 <= zlen b ->
  read_intle16 (bits_of_bytes b) (16 * t) = PyOk (signed16 (word16 b t), 16 * (t + 1)).
Proof.
  intros Hb Ht Hl. unfold read_intle16. rewrite zlen_bits_of_bytes.
  destruct (Z.leb_spec 0 (16 * t)); [|lia]. destruct (Z.leb_spec (16 * t + 16) (8 * zlen b)); [|lia]. cbn [andb].
  rewrite (byte_bits b (16 * t) (2 * t)) by (auto; lia). rewrite (byte_bits b (16 * t + 8) (2 * t + 1)) by (auto; lia).
  unfold signed16, word16. do 2 f_equal. lia.
Qed.

(* ------------------------------------------------------------------ *)
(** ** Comparing and selecting *)
Lemma pyfor_n_inv {S} (I : Z -> S -> Prop) (f : Z -> S -> py S) k : forall i s,
  (forall a s, i <= a < i + Z.of_nat k -> I a s -> exists s', f a s = PyOk s' /\ I (a + 1) s') -> I i s ->
  exists s', pyfor_n k i f s = PyOk s' /\ I (i + Z.of_nat k) s'.
Proof.
  induction k as [|k IH]; intros i s H Hi; cbn [pyfor_n].
  - exists s. split; [reflexivity|]. now replace (i + Z.of_nat 0) with i by lia.
  - destruct (H i s ltac:(lia) Hi) as (s' & E & Hs'). rewrite E. cbn [pybind].
    destruct (IH (i + 1) s') as (s2 & E2 & H2); [intros; apply H; auto; lia|exact Hs'|].
    exists s2. split; [exact E2|]. now replace (i + Z.of_nat (Datatypes.S k)) with (i + 1 + Z.of_nat k) by lia.
Qed.
Lemma pyfor_inv {S} n (I : Z -> S -> Prop) (f : Z -> S -> py S) s : 0 <= n -> I 0 s ->
  (forall a s, 0 <= a < n -> I a s -> exists s', f a s = PyOk s' /\ I (a + 1) s') ->
  exists s', pyfor n f s = PyOk s' /\ I n s'.
Proof.
  intros Hn Hi H. destruct (pyfor_n_inv I f (Z.to_nat n) 0 s) as (s' & E & Hs); [intros; apply H; auto; lia|exact Hi|].
  exists s'. split; [exact E|]. now replace n with (0 + Z.of_nat (Z.to_nat n)) by lia.
Qed.
(** Two matrices whose row i has w i entries. *)
Lemma ctverify_gen r (w : Z -> Z) (f g : Z -> Z -> Z) : 0 <= r -> (forall i, 0 <= i < r -> 0 <= w i) ->
  exists b, ctverify (ztab r (fun i => ztab (w i) (f i))) (ztab r (fun i => ztab (w i) (g i))) = PyOk b /\
    (b = true <-> forall i j, 0 <= i < r -> 0 <= j < w i -> f i j = g i j).
Proof.
  intros Hr Hw. unfold ctverify. rewrite zlen_ztab by lia.
  match goal with |- context [pyfor r ?F 0] =>
    destruct (pyfor_inv r (fun i v => v = 0 <-> forall a j, 0 <= a < i -> 0 <= j < w a -> f a j = g a j) F 0) as (v & E & Hv) end; [lia| | |].
  - split; [intros _ a j Ha; lia|reflexivity].
  - intros i s Hi HI. rewrite pyget_ztab by lia. cbn [pybind]. rewrite zlen_ztab by (apply Hw; lia).
    match goal with |- context [pyfor (w i) ?F s] =>
      destruct (pyfor_inv (w i) (fun k v => v = 0 <-> s = 0 /\ forall j, 0 <= j < k -> f i j = g i j) F s) as (v & E & Hv) end; [apply Hw; lia| | |].
    + split; [intros ->; split; [reflexivity|intros; lia]|tauto].
    + intros j v Hj Hv. unfold pyget2. repeat (rewrite pyget_ztab by lia; cbn [pybind]).
      eexists. split; [reflexivity|]. rewrite Z.lor_eq_0_iff, Z.lxor_eq_0_iff, Hv. split.
      * intros ((? & A) & Ex). split; [assumption|]. intros k Hk. destruct (Z.eq_dec k j) as [->|]; [exact Ex|apply A; lia].
      * intros (? & A). split; [split; [assumption|intros; apply A; lia]|apply A; lia].
    + exists v. split; [exact E|]. rewrite Hv, HI. split.
      * intros (A & Bq) a j Ha Hj. destruct (Z.eq_dec a i) as [->|]; [apply Bq; lia|apply A; lia].
      * intros A. split; [intros a j Ha; apply A; lia|intros; apply A; lia].
  - rewrite E. cbn [pybind]. eexists. split; [reflexivity|]. rewrite Z.eqb_eq. exact Hv.
Qed.
Lemma rows2 n l1 l2 : 0 <= n -> rows 8 n l1 ++ rows 8 8 l2 =
  ztab 16 (fun i => ztab (if i <? 8 then n else 8) (if i <? 8 then (fun j => znth l1 (i * n + j)) else (fun j => znth l2 ((i - 8) * 8 + j)))).
Proof.
  intros. change 16 with (8 + 8). rewrite ztab_app by lia. unfold rows, mtab. apply f_equal2; apply ztab_ext; intros i Hi.
  - destruct (Z.ltb_spec i 8); [reflexivity|lia].
  - destruct (Z.ltb_spec (8 + i) 8); [lia|]. apply ztab_ext. intros. do 2 f_equal. lia.
Qed.
Lemma ctverify_spec n l1 l2 m1 m2 : 0 < n -> zlen l1 = 8 * n -> zlen m1 = 8 * n -> zlen l2 = 64 -> zlen m2 = 64 ->
  ctverify (rows 8 n l1 ++ rows 8 8 l2) (rows 8 n m1 ++ rows 8 8 m2) =
  PyOk (if list_eq_dec Z.eq_dec (l1 ++ l2) (m1 ++ m2) then true else false).
Proof.
  intros Hn L1 M1 L2 M2. rewrite !rows2 by lia.
  destruct (ctverify_gen 16 (fun i => if i <? 8 then n else 8)
    (fun i => if i <? 8 then (fun j => znth l1 (i * n + j)) else (fun j => znth l2 ((i - 8) * 8 + j)))
    (fun i => if i <? 8 then (fun j => znth m1 (i * n + j)) else (fun j => znth m2 ((i - 8) * 8 + j)))) as (b & E & Hb); [lia|intros i Hi; destruct (i <? 8); lia|].
  rewrite E. f_equal.
  assert (HH : b = true <-> l1 ++ l2 = m1 ++ m2).
  { rewrite Hb. split.
    - intros A. f_equal.
      + apply list_ext; [lia|]. intros t Ht. rewrite L1 in Ht.
        assert (Hd : 0 <= t / n < 8) by (split; [apply Z.div_pos; lia|apply Z.div_lt_upper_bound; lia]).
        pose proof (Z.mod_pos_bound t n ltac:(lia)) as Hm. pose proof (Z.div_mod t n ltac:(lia)) as Et.
        specialize (A (t / n) (t mod n) ltac:(lia)). destruct (Z.ltb_spec (t / n) 8); [|lia]. specialize (A Hm). cbv beta in A.
        replace (t / n * n + t mod n) with t in A by lia. exact A.
      + apply list_ext; [lia|]. intros t Ht. rewrite L2 in Ht.
        specialize (A (8 + t / 8) (t mod 8) ltac:(dlia)). destruct (Z.ltb_spec (8 + t / 8) 8); [dlia|]. specialize (A ltac:(dlia)). cbv beta in A.
        replace ((8 + t / 8 - 8) * 8 + t mod 8) with t in A by dlia. exact A.
    - intros A i j Hi Hj. apply app_eq_len in A; [|lia]. destruct A as (-> & ->). destruct (i <? 8); reflexivity. }
  destruct (list_eq_dec Z.eq_dec (l1 ++ l2) (m1 ++ m2)); destruct b; tauto || (exfalso; intuition discriminate) || reflexivity.
Qed.
Lemma ctselect_spec a b sel : bytes_ok a -> bytes_ok b -> zlen a = zlen b ->
  ctselect a b sel = PyOk (if sel then a else b).
Proof.
  intros Ha Hb Hl. unfold ctselect.
  assert (Em : pyfor 8 (fun i mask => PyOk (Z.lor mask (Z.shiftl (Z.b2z sel) i))) 0 = PyOk (if sel then 255 else 0)) by (destruct sel; reflexivity).
  rewrite Em. cbn [pybind].
  rewrite (pyfor_seq (zlen a) _ (fun i => ztab i (fun k => znth (if sel then a else b) k))); [|apply zlen_nonneg|reflexivity|].
  - f_equal. replace (zlen a) with (zlen (if sel then a else b)) by (destruct sel; auto). symmetry; apply zlist_ztab.
  - intros i Hi. repeat (rewrite pyget_znth by lia; cbn [pybind]).
    pose proof (inrange_znth _ _ i Ha ltac:(lia)). pose proof (inrange_znth _ _ i Hb ltac:(lia)).
    assert (Ev : Z.lor (Z.land (znth a i) (if sel then 255 else 0)) (Z.land (znth b i) (Z.lnot (if sel then 255 else 0))) = znth (if sel then a else b) i).
    { destruct sel.
      - change 255 with (Z.ones 8). rewrite <- Z.ldiff_land, Z.land_ones by lia. rewrite Z.ldiff_ones_r by lia.
        change (2 ^ 8) with 256. rewrite Z.mod_small by lia. rewrite Z.shiftr_div_pow2 by lia. change (2 ^ 8) with 256. rewrite Z.div_small by lia. apply Z.lor_0_r.
      - rewrite Z.land_0_r. change (Z.lnot 0) with (-1). rewrite Z.land_m1_r. apply Z.lor_0_l. }
    rewrite Ev. unfold pybyte.
    assert (0 <= znth (if sel then a else b) i < 256) by (destruct sel; lia).
    destruct (Z.leb_spec 0 (znth (if sel then a else b) i)); [|lia]. destruct (Z.ltb_spec (znth (if sel then a else b) i) 256); [|lia]. cbn [andb pybind].
    now rewrite ztab_snoc by lia.
Qed.
