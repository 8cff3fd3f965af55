(** The key encapsulation functions of the Python reference compute the FrodoKEM algorithms. *)
From Verif Require Import ZList Params KeccakSpec AesSpec UtilSpec MatrixSpec FrodoSpec ShakeProofs UtilProofs EncodeProofs KemProofs KemWp FrodoFacts Py PyProofs.
Local Opaque AES128 SHAKE128 SHAKE256.

(** A FrodoKEM object holds the parameters P and generates A as g says. *)
Record pyok (X : frodo) (P : params) (g : genA) : Prop := {
  ok_T : T_chi X = pCDF P; ok_D : fD X = pD P; ok_q : fq X = 2 ^ pD P; ok_n : fn X = pN P; ok_nbar : nbar X = 8; ok_mbar : mbar X = 8;
  ok_B : fB X = pB P; ok_seedA : len_seedA_bytes X = 16; ok_z : len_z_bytes X = 16; ok_mu : len_mu_bytes X = bytesMu P;
  ok_seedSE : len_seedSE_bytes X = pCB P; ok_s : len_s_bytes X = pCB P; ok_k : len_k_bytes X = pCB P; ok_pkh : len_pkh_bytes X = pCB P;
  ok_ss : len_ss_bytes X = pCB P; ok_chi : len_chi_bytes X = 2;
  ok_shake : fshake X = if pRate P =? 168 then Shake128 else Shake256;
  ok_gen : fgen X = match g with GenAES => Gen_AES128 | GenSHAKE => Gen_SHAKE128 end;
  ok_sk : len_sk_bytes X = skBytes P; ok_pk : len_pk_bytes X = pkBytes P; ok_ct : len_ct_bytes X = ctBytes P }.

Section K.
Variables (X : frodo) (P : params) (g : genA).
Hypothesis V : valid P.
Hypothesis OK : pyok X P g.
Local Notation n := (pN P).
Local Notation D := (pD P).
Local Notation CB := (pCB P).
Local Notation q := (2 ^ pD P).

Lemma HX : 1 <= fB X < fD X /\ fD X <= 16 /\ fB X <= 8 /\ fq X = 2 ^ fD X.
Proof.
  rewrite (ok_B _ _ _ OK), (ok_D _ _ _ OK). pose proof (v_D P V). pose proof (v_B P V). pose proof (v_B8 P V).
  split; [lia|]. split; [lia|]. split; [lia|]. exact (ok_q _ _ _ OK).
Qed.
Lemma hash_eq M k : lib_shake (fshake X) M k = Hash P M k.
Proof. rewrite (ok_shake _ _ _ OK). unfold Hash. destruct (pRate P =? 168); reflexivity. Qed.
Lemma gen_eq seedA : zlen seedA = 16 -> py_gen X seedA = PyOk (mtab n n (fun i j => A_spec g n seedA i j mod q)).
Proof.
  intros Hs. pose proof (v_N P V). pose proof (v_N16 P V). unfold py_gen. rewrite (ok_gen _ _ _ OK). rewrite <- (ok_n _ _ _ OK), <- (ok_q _ _ _ OK).
  destruct g; cbn [A_spec]; [apply genAES_spec|apply genSHAKE_spec]; rewrite ?(ok_n _ _ _ OK); auto; dlia.
Qed.
Lemma parse_eq rb cnt : 0 <= cnt -> 2 * cnt <= zlen rb -> parse_r rb cnt = PyOk (ztab cnt (word16 rb)).
Proof. intros. unfold parse_r. apply pylist_ztab; [lia|]. intros i Hi. apply unpack_H_ok; lia. Qed.
Lemma word16_range b k : bytes_ok b -> 0 <= word16 b k < 65536.
Proof. intros H. unfold word16. pose proof (inrange_znth_all 256 b (2 * k) ltac:(lia) H). pose proof (inrange_znth_all 256 b (2 * k + 1) ltac:(lia) H). lia. Qed.
Lemma sample_eq rb cnt a b n1 n2 : bytes_ok rb -> 0 <= a -> a + n1 * n2 = b -> b <= cnt -> 0 <= n1 -> 0 <= n2 ->
  py_sample_matrix X (pyslice (ztab cnt (word16 rb)) a b) n1 n2 = PyOk (rows n1 n2 (SampleMatrix P rb a (n1 * n2))).
Proof.
  intros Hb Ha <- Hc H1 H2. pose proof (v_cdf_len P V). assert (0 <= n1 * n2) by (apply Z.mul_nonneg_nonneg; lia).
  unfold pyslice. replace (a + n1 * n2 - a) with (n1 * n2) by lia. rewrite zslice_ztab by (rewrite ?zlen_ztab; lia).
  rewrite (ztab_ext (n1 * n2) _ (fun i => word16 rb (a + i))) by (intros; apply znth_ztab; lia).
  rewrite py_sample_matrix_spec; rewrite ?(ok_T _ _ _ OK); auto; try lia.
  - f_equal. f_equal. rewrite map_ztab. reflexivity.
  - apply inrange_ztab. intros; now apply word16_range.
  - rewrite zlen_ztab; lia.
Qed.
Lemma qne : q <> 0. Proof. pose proof (F_q P g V). lia. Qed.

(** A*S + E, S'*A + E', S'*B + E'', C - B'*S *)
Lemma as_e_eq A St E : matrix_mul X (mtab n n (fun i j => A i j mod q)) (mtab n 8 (fun i j => znth St (j * n + i))) =
    PyOk (mtab n 8 (fun i k => zsum n (fun j => A i j mod q * znth St (k * n + j)) mod q)) /\
  matrix_add X (mtab n 8 (fun i k => zsum n (fun j => A i j mod q * znth St (k * n + j)) mod q)) (rows n 8 E) =
    PyOk (rows n 8 (AS_plus_E q n A St E)).
Proof.
  pose proof (v_N P V). split.
  - rewrite matrix_mul_spec by lia. rewrite (ok_q _ _ _ OK). reflexivity.
  - unfold matrix_add, rows at 1. rewrite matrix_zip_spec by lia. rewrite (ok_q _ _ _ OK). f_equal. unfold AS_plus_E.
    rewrite (rows_tab n 8 (fun i k => AS_E n A St E i k mod q)) by lia. apply mtab_ext. intros i k Hi Hk. unfold AS_E.
    rewrite (Z.mul_comm i 8), (zsum_mod_ext n _ (fun j => A i j * znth St (k * n + j)) q); [|apply qne|intros j Hj; apply Z.mul_mod_idemp_l, qne].
    rewrite Z.add_mod_idemp_l by apply qne. now rewrite Z.add_comm.
Qed.
Lemma sa_e_eq A S' E' : matrix_mul X (rows 8 n S') (mtab n n (fun i j => A i j mod q)) =
    PyOk (mtab 8 n (fun k i => zsum n (fun j => znth S' (k * n + j) * (A j i mod q)) mod q)) /\
  matrix_add X (mtab 8 n (fun k i => zsum n (fun j => znth S' (k * n + j) * (A j i mod q)) mod q)) (rows 8 n E') =
    PyOk (rows 8 n (SA_plus_E q n A S' E')).
Proof.
  pose proof (v_N P V). split.
  - unfold rows. rewrite matrix_mul_spec by lia. rewrite (ok_q _ _ _ OK). reflexivity.
  - unfold matrix_add, rows at 1. rewrite matrix_zip_spec by lia. rewrite (ok_q _ _ _ OK). f_equal. unfold SA_plus_E.
    rewrite (rows_tab 8 n (fun k i => SA_E n A S' E' k i mod q)) by lia. apply mtab_ext. intros k i Hi Hk. unfold SA_E.
    rewrite (zsum_mod_ext n _ (fun j => znth S' (k * n + j) * A j i) q); [|apply qne|intros j Hj; apply Z.mul_mod_idemp_r, qne].
    rewrite Z.add_mod_idemp_l by apply qne. now rewrite Z.add_comm.
Qed.
Lemma rows64 l : zlen l = 64 -> forall f, (forall t, 0 <= t < 64 -> znth l t = f (t / 8) (t mod 8)) -> mtab 8 8 f = rows 8 8 l.
Proof.
  intros L f H. unfold rows. apply mtab_ext. intros i j Hi Hj. rewrite H by lia. destruct (idx_div 8 i j Hj) as (-> & ->). reflexivity.
Qed.
Lemma sb_e_eq S' Bm E : matrix_mul X (rows 8 n S') (rows n 8 Bm) =
    PyOk (mtab 8 8 (fun k i => zsum n (fun j => znth S' (k * n + j) * znth Bm (j * 8 + i)) mod q)) /\
  matrix_add X (mtab 8 8 (fun k i => zsum n (fun j => znth S' (k * n + j) * znth Bm (j * 8 + i)) mod q)) (rows 8 8 E) =
    PyOk (rows 8 8 (SB_E_spec q n S' Bm E)).
Proof.
  pose proof (v_N P V). split.
  - unfold rows. rewrite matrix_mul_spec by lia. rewrite (ok_q _ _ _ OK). reflexivity.
  - unfold matrix_add, rows at 1. rewrite matrix_zip_spec by lia. rewrite (ok_q _ _ _ OK). apply f_equal. apply rows64; [apply zlen_ztab; lia|].
    intros t Ht. unfold SB_E_spec. rewrite znth_ztab by lia. rewrite Z.add_mod_idemp_l by apply qne. rewrite Z.add_comm.
    now replace (t / 8 * 8 + t mod 8) with t by dlia.
Qed.
Lemma add_eq a b : matrix_add X (rows 8 8 a) (rows 8 8 b) = PyOk (rows 8 8 (add_spec q a b)).
Proof.
  unfold matrix_add, rows at 1 2. rewrite matrix_zip_spec by lia. rewrite (ok_q _ _ _ OK). apply f_equal. apply rows64; [apply zlen_ztab; lia|].
  intros t Ht. unfold add_spec. rewrite znth_ztab by lia. replace (t / 8 * 8 + t mod 8) with t by dlia. reflexivity.
Qed.
Lemma bs_sub_eq Bm Cm St : matrix_mul X (rows 8 n Bm) (mtab n 8 (fun i j => znth St (j * n + i))) = PyOk (rows 8 8 (BS_spec q n Bm St)) /\
  matrix_sub X (rows 8 8 Cm) (rows 8 8 (BS_spec q n Bm St)) = PyOk (rows 8 8 (sub_spec q Cm (BS_spec q n Bm St))).
Proof.
  pose proof (v_N P V). split.
  - unfold rows at 1. rewrite matrix_mul_spec by lia. rewrite (ok_q _ _ _ OK). apply f_equal. apply rows64; [apply zlen_ztab; lia|].
    intros t Ht. unfold BS_spec. rewrite znth_ztab by lia. reflexivity.
  - unfold matrix_sub, rows at 1 2. rewrite matrix_zip_spec by lia. rewrite (ok_q _ _ _ OK). apply f_equal. apply rows64; [apply zlen_ztab; lia|].
    intros t Ht. unfold sub_spec. rewrite (znth_ztab 64 (fun t => (znth Cm t - znth (BS_spec q n Bm St) t) mod q)) by lia. replace (t / 8 * 8 + t mod 8) with t by dlia. reflexivity.
Qed.
Lemma pack_eq r c l : 0 < r -> 0 < c -> zlen l = r * c -> (D * (r * c)) mod 8 = 0 -> py_pack X (rows r c l) = PyOk (Pack P l).
Proof.
  intros. unfold Pack. rewrite (py_pack_spec X HX r c l); rewrite ?(ok_D _ _ _ OK); auto. congruence.
Qed.
Lemma unpack_eq r c b : 0 <= r -> 0 < c -> D * (r * c) <= 8 * zlen b -> py_unpack X b r c = PyOk (rows r c (Unpack P (r * c) b)).
Proof. intros. rewrite (py_unpack_spec X HX r c b); rewrite ?(ok_D _ _ _ OK); auto. Qed.

Lemma transpose_eq l : 0 < n -> matrix_transpose (rows 8 n l) = PyOk (mtab n 8 (fun i j => znth l (j * n + i))).
Proof. intros. unfold rows. rewrite (matrix_transpose_spec X) by lia. reflexivity. Qed.

(** The part shared by encapsulation and decapsulation. *)
Lemma encrypt_eq seedA b pkh mu : zlen seedA = 16 -> zlen b = D * n -> bytesMu P <= zlen mu ->
  let '(B', C', k) := Encrypt P g seedA b pkh mu in
  py_encrypt X seedA b pkh mu = PyOk (rows 8 n B', rows 8 8 C', k).
Proof.
  intros Hs Hb Hmu. pose proof (F_sizes P g V) as (HN & HD & HB & HCB & HDN & ENN & EbB & EbC & EbMu & Epk & Esk & Ect).
  unfold py_encrypt. rewrite !hash_eq.
  rewrite (ok_mbar _ _ _ OK), (ok_nbar _ _ _ OK), (ok_n _ _ _ OK), (ok_seedSE _ _ _ OK), (ok_k _ _ _ OK), (ok_chi _ _ _ OK).
  replace (CB + CB) with (2 * CB) by lia. set (G2 := Hash P (pkh ++ mu) (2 * CB)).
  assert (LG : zlen G2 = 2 * CB) by (apply (F_zlen_Hash P g V); lia).
  unfold pyslice at 1. replace (CB - 0) with CB by lia. change (zslice G2 0 CB) with (firstn (Z.to_nat CB) G2).
  change ([150] ++ firstn (Z.to_nat CB) G2) with (150 :: firstn (Z.to_nat CB) G2).
  replace ((2 * 8 * n + 8 * 8) * 2) with (2 * (16 * n + 64)) by lia. set (rb := Hash P (150 :: firstn (Z.to_nat CB) G2) (2 * (16 * n + 64))).
  assert (Lrb : zlen rb = 2 * (16 * n + 64)) by (apply (F_zlen_Hash P g V); lia).
  assert (Rb : bytes_ok rb) by (apply (F_Hash_ok P g V)).
  replace (2 * 8 * n + 8 * 8) with (16 * n + 64) by lia. rewrite parse_eq by lia. cbn [pybind].
  rewrite (sample_eq rb _ 0 (8 * n)) by (auto; lia). cbn [pybind].
  rewrite (sample_eq rb _ (8 * n) (2 * 8 * n)) by (auto; lia). cbn [pybind].
  rewrite gen_eq by auto. cbn [pybind].
  set (S' := SampleMatrix P rb 0 (8 * n)). set (E' := SampleMatrix P rb (8 * n) (8 * n)).
  destruct (sa_e_eq (A_spec g n seedA) S' E') as (-> & R). cbn [pybind]. rewrite R. cbn [pybind]. clear R.
  replace (2 * 8 * n) with (16 * n) by lia.
  rewrite (sample_eq rb _ (16 * n) (16 * n + 64)) by (auto; lia). cbn [pybind]. change (8 * 8) with 64. set (E'' := SampleMatrix P rb (16 * n) 64).
  rewrite unpack_eq by lia. cbn [pybind]. replace (n * 8) with (8 * n) by lia. set (Bm := Unpack P (8 * n) b).
  destruct (sb_e_eq S' Bm E'') as (-> & R). cbn [pybind]. rewrite R. cbn [pybind]. clear R.
  rewrite (py_encode_spec X HX mu); rewrite ?(ok_B _ _ _ OK), ?(ok_mbar _ _ _ OK), ?(ok_nbar _ _ _ OK); auto; [|lia].
  cbn [pybind]. rewrite (ok_D _ _ _ OK). rewrite add_eq. cbn [pybind].
  unfold Encrypt. fold G2. fold rb. fold S' E' E'' Bm. f_equal. f_equal.
  unfold pyslice, zslice. rewrite firstn_all2; [reflexivity|]. rewrite skipn_length. unfold zlen in LG. lia.
Qed.
Lemma encrypt_short seedA b pkh mu : zlen seedA = 16 -> zlen b = D * n -> zlen mu < bytesMu P ->
  py_encrypt X seedA b pkh mu = Raise IndexError.
Proof.
  intros Hs Hb Hmu. pose proof (F_sizes P g V) as (HN & HD & HB & HCB & HDN & ENN & EbB & EbC & EbMu & Epk & Esk & Ect).
  unfold py_encrypt. rewrite !hash_eq.
  rewrite (ok_mbar _ _ _ OK), (ok_nbar _ _ _ OK), (ok_n _ _ _ OK), (ok_seedSE _ _ _ OK), (ok_k _ _ _ OK), (ok_chi _ _ _ OK).
  replace (CB + CB) with (2 * CB) by lia. set (G2 := Hash P (pkh ++ mu) (2 * CB)).
  assert (LG : zlen G2 = 2 * CB) by (apply (F_zlen_Hash P g V); lia).
  unfold pyslice at 1. replace (CB - 0) with CB by lia. change (zslice G2 0 CB) with (firstn (Z.to_nat CB) G2).
  change ([150] ++ firstn (Z.to_nat CB) G2) with (150 :: firstn (Z.to_nat CB) G2).
  replace ((2 * 8 * n + 8 * 8) * 2) with (2 * (16 * n + 64)) by lia. set (rb := Hash P (150 :: firstn (Z.to_nat CB) G2) (2 * (16 * n + 64))).
  assert (Lrb : zlen rb = 2 * (16 * n + 64)) by (apply (F_zlen_Hash P g V); lia).
  assert (Rb : bytes_ok rb) by (apply (F_Hash_ok P g V)).
  replace (2 * 8 * n + 8 * 8) with (16 * n + 64) by lia. rewrite parse_eq by lia. cbn [pybind].
  rewrite (sample_eq rb _ 0 (8 * n)) by (auto; lia). cbn [pybind].
  rewrite (sample_eq rb _ (8 * n) (2 * 8 * n)) by (auto; lia). cbn [pybind].
  rewrite gen_eq by auto. cbn [pybind].
  set (S' := SampleMatrix P rb 0 (8 * n)). set (E' := SampleMatrix P rb (8 * n) (8 * n)).
  destruct (sa_e_eq (A_spec g n seedA) S' E') as (-> & R). cbn [pybind]. rewrite R. cbn [pybind]. clear R.
  replace (2 * 8 * n) with (16 * n) by lia.
  rewrite (sample_eq rb _ (16 * n) (16 * n + 64)) by (auto; lia). cbn [pybind]. change (8 * 8) with 64. set (E'' := SampleMatrix P rb (16 * n) 64).
  rewrite unpack_eq by lia. cbn [pybind]. replace (n * 8) with (8 * n) by lia. set (Bm := Unpack P (8 * n) b).
  destruct (sb_e_eq S' Bm E'') as (-> & R). cbn [pybind]. rewrite R. cbn [pybind]. clear R.
  rewrite (py_encode_short X HX mu); [reflexivity|rewrite (ok_B _ _ _ OK); lia|apply (ok_mbar _ _ _ OK)|apply (ok_nbar _ _ _ OK)].
Qed.
Lemma pyassert_true b : b = true -> pyassert b = PyOk tt. Proof. intros ->; reflexivity. Qed.

Lemma encaps_long rng pk mu : zlen pk = pkBytes P -> rng (bytesMu P) = PyOk mu -> bytesMu P <= zlen mu ->
  kem_encaps X rng pk = PyOk (Encaps P g pk mu).
Proof.
  intros Hpk Hr Hmu. pose proof (F_sizes P g V) as (HN & HD & HB & HCB & HDN & ENN & EbB & EbC & EbMu & Epk & Esk & Ect).
  pose proof (v_N P V). assert (D * n <= 16 * 32768) by (apply Z.mul_le_mono_nonneg; lia).
  unfold kem_encaps. rewrite (ok_D _ _ _ OK), (ok_n _ _ _ OK), (ok_nbar _ _ _ OK), (ok_seedA _ _ _ OK), (ok_mu _ _ _ OK), (ok_pkh _ _ _ OK), (ok_ss _ _ _ OK), (ok_ct _ _ _ OK).
  rewrite pydiv8 by lia. cbn [pybind]. rewrite pyassert_true by (unfold pyfeq; cbn [fst snd]; apply Z.eqb_eq; lia). cbn [pybind].
  rewrite Hr. cbn [pybind]. rewrite !hash_eq. unfold Encaps.
  assert (E1 : pyslice pk 0 16 = firstn 16 pk) by reflexivity. rewrite E1.
  assert (E2 : pyslice pk 16 (zlen pk) = skipn 16 pk).
  { unfold pyslice, zslice. apply firstn_all2. rewrite skipn_length. unfold zlen. lia. }
  rewrite E2.
  assert (L1 : zlen (firstn 16 pk) = 16) by (rewrite <- E1; unfold pyslice; rewrite zlen_zslice; lia).
  assert (L2 : zlen (skipn 16 pk) = D * n) by (rewrite <- E2; unfold pyslice; rewrite zlen_zslice; lia).
  pose proof (encrypt_eq (firstn 16 pk) (skipn 16 pk) (Hash P pk CB) mu L1 L2 Hmu) as EE.
  pose proof (Encrypt_shape P g V (firstn 16 pk) (skipn 16 pk) (Hash P pk CB) mu) as ES.
  destruct (Encrypt P g (firstn 16 pk) (skipn 16 pk) (Hash P pk CB) mu) as [[B' C'] k].
  destruct ES as (LB & RB & LC & RC & _). rewrite EE. cbn [pybind].
  rewrite (pack_eq 8 n) by (try lia; replace (D * (8 * n)) with (D * n * 8) by lia; apply Z.mod_mul; lia). cbn [pybind].
  rewrite (pack_eq 8 8) by (try lia; replace (D * (8 * 8)) with (D * 8 * 8) by lia; apply Z.mod_mul; lia). cbn [pybind].
  rewrite hash_eq. pose proof (F_zlen_PackB P g V B' LB) as LPB. pose proof (F_zlen_PackC P g V C' LC) as LPC.
  rewrite pyassert_true by (apply Z.eqb_eq; rewrite zlen_app; lia). cbn [pybind].
  rewrite pyassert_true by (apply Z.eqb_eq; rewrite (F_zlen_Hash P g V); lia). cbn [pybind]. now rewrite app_assoc.
Qed.
Lemma encaps_short rng pk mu : zlen pk = pkBytes P -> rng (bytesMu P) = PyOk mu -> zlen mu < bytesMu P ->
  kem_encaps X rng pk = Raise IndexError.
Proof.
  intros Hpk Hr Hmu. pose proof (F_sizes P g V) as (HN & HD & HB & HCB & HDN & ENN & EbB & EbC & EbMu & Epk & Esk & Ect).
  pose proof (v_N P V). assert (D * n <= 16 * 32768) by (apply Z.mul_le_mono_nonneg; lia).
  unfold kem_encaps. rewrite (ok_D _ _ _ OK), (ok_n _ _ _ OK), (ok_nbar _ _ _ OK), (ok_seedA _ _ _ OK), (ok_mu _ _ _ OK), (ok_pkh _ _ _ OK), (ok_ss _ _ _ OK), (ok_ct _ _ _ OK).
  rewrite pydiv8 by lia. cbn [pybind]. rewrite pyassert_true by (unfold pyfeq; cbn [fst snd]; apply Z.eqb_eq; lia). cbn [pybind].
  rewrite Hr. cbn [pybind]. rewrite !hash_eq.
  assert (E1 : pyslice pk 0 16 = firstn 16 pk) by reflexivity. rewrite E1.
  assert (E2 : pyslice pk 16 (zlen pk) = skipn 16 pk).
  { unfold pyslice, zslice. apply firstn_all2. rewrite skipn_length. unfold zlen. lia. }
  rewrite E2.
  assert (L1 : zlen (firstn 16 pk) = 16) by (rewrite <- E1; unfold pyslice; rewrite zlen_zslice; lia).
  assert (L2 : zlen (skipn 16 pk) = D * n) by (rewrite <- E2; unfold pyslice; rewrite zlen_zslice; lia).
  rewrite (encrypt_short (firstn 16 pk) (skipn 16 pk) (Hash P pk CB) mu L1 L2 Hmu). reflexivity.
Qed.
Lemma encaps_eq rng pk mu : zlen pk = pkBytes P -> rng (bytesMu P) = PyOk mu -> zlen mu = bytesMu P ->
  kem_encaps X rng pk = PyOk (Encaps P g pk mu).
Proof. intros Hpk Hr Hmu. apply encaps_long; [exact Hpk|exact Hr|lia]. Qed.

Lemma bytes_of_S_app a b : bytes_of_S (a ++ b) = bytes_of_S a ++ bytes_of_S b.
Proof. unfold bytes_of_S. apply flat_map_app. Qed.
Lemma bytes_of_S_ok l : bytes_ok (bytes_of_S l).
Proof.
  induction l as [|x l IH]; [constructor|]. unfold bytes_of_S. cbn [flat_map]. apply inrange_app; [|exact IH].
  unfold le16. repeat constructor; dlia.
Qed.
(** Whatever the random source returns is cut into three pieces; only the length of the first is noticed. *)
Lemma keygen_any rng rnd : rng (CB + CB + 16) = PyOk rnd -> bytes_ok (zslice rnd 0 CB) ->
  let s := zslice rnd 0 CB in let seedSE := zslice rnd CB CB in let z := zslice rnd (CB + CB) 16 in
  kem_keygen X rng = if CB <=? zlen rnd then PyOk (KeyGen P g s seedSE z) else Raise AssertionError.
Proof.
  intros Hr Os s seedSE z. fold s in Os. pose proof (F_sizes P g V) as (HN & HD & HB & HCB & HDN & ENN & EbB & EbC & EbMu & Epk & Esk & Ect).
  pose proof (v_cdf_len P V) as Hcdf.
  unfold kem_keygen. rewrite (ok_nbar _ _ _ OK), (ok_n _ _ _ OK), (ok_seedSE _ _ _ OK), (ok_s _ _ _ OK), (ok_z _ _ _ OK), (ok_seedA _ _ _ OK), (ok_chi _ _ _ OK), (ok_pkh _ _ _ OK), (ok_pk _ _ _ OK), (ok_sk _ _ _ OK).
  rewrite Hr. cbn [pybind]. rewrite !hash_eq.
  assert (E1 : pyslice rnd 0 CB = s) by (unfold pyslice; now rewrite Z.sub_0_r).
  assert (E2 : pyslice rnd CB (CB + CB) = seedSE) by (unfold pyslice; now replace (CB + CB - CB) with CB by lia).
  assert (E3 : pyslice rnd (CB + CB) (CB + CB + 16) = z) by (unfold pyslice; now replace (CB + CB + 16 - (CB + CB)) with 16 by lia).
  assert (Ls : (zlen s =? CB) = (CB <=? zlen rnd)).
  { unfold s, zslice, zlen. rewrite firstn_length, skipn_length. destruct (Z.leb_spec CB (Z.of_nat (length rnd))); [apply Z.eqb_eq|apply Z.eqb_neq]; lia. }
  rewrite E1, E2, E3. clearbody s seedSE z. unfold KeyGen. set (seedA := Hash P z 16).
  assert (LA : zlen seedA = 16) by (apply (F_zlen_Hash P g V); lia).
  assert (OA : bytes_ok seedA) by apply (F_Hash_ok P g V).
  rewrite gen_eq by exact LA. cbn [pybind]. change ([95] ++ seedSE) with (95 :: seedSE).
  replace (2 * n * 8 * 2) with (2 * (16 * n)) by lia. set (rb := Hash P (95 :: seedSE) (2 * (16 * n))).
  assert (Lrb : zlen rb = 2 * (16 * n)) by (apply (F_zlen_Hash P g V); lia).
  assert (Rb : bytes_ok rb) by (apply (F_Hash_ok P g V)).
  replace (2 * n * 8) with (16 * n) by lia. rewrite parse_eq by lia. cbn [pybind].
  rewrite (sample_eq rb _ 0 (n * 8)) by (auto; lia). cbn [pybind]. set (St := SampleMatrix P rb 0 (8 * n)).
  rewrite transpose_eq by lia. cbn [pybind].
  rewrite (sample_eq rb _ (n * 8) (16 * n)) by (auto; lia). cbn [pybind].
  replace (n * 8) with (8 * n) by lia. set (E := SampleMatrix P rb (8 * n) (8 * n)).
  destruct (as_e_eq (A_spec g n seedA) St E) as (R1 & R). rewrite R1. cbn [pybind]. rewrite R. cbn [pybind]. clear R1 R.
  set (Bm := AS_plus_E q n (A_spec g n seedA) St E).
  assert (LBm : zlen Bm = n * 8) by (apply zlen_ztab; lia).
  rewrite (pack_eq n 8) by (try lia; rewrite Z.mul_assoc; apply Z.mod_mul; lia). cbn [pybind].
  set (b := Pack P Bm). assert (Lb : zlen b = D * n) by (apply (F_zlen_PackB P g V); lia).
  assert (Ob : bytes_ok b) by (apply (repack_range D 8); lia).
  rewrite hash_eq. rewrite pyassert_true by (apply Z.eqb_eq; rewrite zlen_app; lia). cbn [pybind].
  assert (LSt : zlen St = 8 * n) by (apply zlen_ztab; lia).
  rewrite (pyfor_seq 8 _ (fun i => bits_of_bytes ((s ++ seedA ++ b) ++ bytes_of_S (zslice St 0 (i * n))))); [|lia| |].
  2:{ now rewrite app_nil_r. }
  2:{ intros i Hi. rewrite (pyfor_seq n _ (fun j => bits_of_bytes ((s ++ seedA ++ b) ++ bytes_of_S (zslice St 0 (i * n + j))))); [|lia| |].
    - do 5 f_equal. lia.
    - do 4 f_equal. lia.
    - intros j Hj. unfold rows. rewrite pyget2_mtab by lia. cbn [pybind].
      pose proof (sample_range P V rb 0 (8 * n) (i * n + j)) as Hx. fold St in Hx.
      rewrite bits_intle16_ok by lia. cbn [pybind]. rewrite <- bits_of_bytes_app, <- app_assoc. do 3 f_equal.
      pose proof (idx_ok 8 n i j Hi Hj).
      rewrite Z.add_assoc. rewrite (zslice_split St 0 (i * n + j) 1) by lia. rewrite bytes_of_S_app. f_equal.
      replace (zslice St (0 + (i * n + j)) 1) with [znth St (i * n + j)].
      2:{ rewrite zslice_ztab by lia. change (ztab 1 (fun k => znth St (0 + (i * n + j) + k))) with [znth St (0 + (i * n + j) + 0)]. do 2 f_equal. lia. }
      unfold bytes_of_S. cbn [flat_map]. now rewrite app_nil_r. }
  cbn [pybind]. rewrite zslice_all_n by lia. rewrite <- bits_of_bytes_app.
  set (pkh := Hash P (seedA ++ b) CB).
  assert (Oh : bytes_ok pkh) by apply (F_Hash_ok P g V).
  assert (Lh : zlen pkh = CB) by (apply (F_zlen_Hash P g V); lia).
  rewrite bits_to_bytes_of. 2:{ repeat apply inrange_app; auto. apply bytes_of_S_ok. }
  cbn [pybind].
  assert (Ll : zlen (((s ++ seedA ++ b) ++ bytes_of_S St) ++ pkh) = zlen s + 16 + D * n + 16 * n + CB).
  { rewrite !zlen_app. unfold bytes_of_S.
    assert (EF : forall l, zlen (flat_map (fun x => le16 (x mod 65536)) l) = 2 * zlen l) by (induction l as [|x l IHl]; [reflexivity|cbn [flat_map]; rewrite zlen_app, IHl, zlen_cons; change (zlen (le16 (x mod 65536))) with 2; lia]).
    rewrite EF. lia. }
  rewrite Ll. replace (zlen s + 16 + D * n + 16 * n + CB =? skBytes P) with (zlen s =? CB).
  2:{ destruct (Z.eqb_spec (zlen s) CB) as [E0|E0]; symmetry; [apply Z.eqb_eq|apply Z.eqb_neq]; lia. }
  rewrite Ls. destruct (CB <=? zlen rnd); cbn [pyassert pybind]; [|reflexivity]. f_equal. f_equal. now rewrite <- !app_assoc.
Qed.
Lemma keygen_eq rng s seedSE z : rng (CB + CB + 16) = PyOk (s ++ seedSE ++ z) ->
  zlen s = CB -> zlen seedSE = CB -> zlen z = 16 -> bytes_ok s ->
  kem_keygen X rng = PyOk (KeyGen P g s seedSE z).
Proof.
  intros Hr Ls Lse Lz Os. pose proof (F_sizes P g V) as (_ & _ & _ & HCB & _).
  rewrite (keygen_any rng _ Hr) by (rewrite zslice_app1 by lia; exact Os).
  rewrite !zlen_app. destruct (Z.leb_spec CB (zlen s + (zlen seedSE + zlen z))) as [_|E]; [|lia].
  rewrite zslice_app1 by lia. rewrite zslice_mid by lia. rewrite app_assoc, zslice_app2 by (rewrite ?zlen_app; lia). reflexivity.
Qed.

(** Decapsulation with the message that was recovered given separately. *)
Definition Decaps_with (mu' sk ct : list Z) : list Z :=
  let '(B'', C', k') := Encrypt P g (sk_seedA P sk) (sk_b P sk) (sk_pkh P sk) mu' in
  let kbar := if list_eq_dec Z.eq_dec (ct_B P ct ++ ct_C P ct) (B'' ++ C') then k' else sk_s P sk in
  Hash P (ct ++ kbar) CB.
(** The message Python recovers: decode of C - B'S, rounding half to even. *)
Definition Decrypt_even (sk ct : list Z) : list Z :=
  regroup (pB P) 8 (8 * pB P) (map (dc_even D (pB P)) (sub_spec q (ct_C P ct) (BS_spec q n (ct_B P ct) (sk_St P sk)))).
Lemma decaps_eq sk ct : zlen sk = skBytes P -> bytes_ok sk -> zlen ct = ctBytes P ->
  kem_decaps X sk ct = PyOk (Decaps_with (Decrypt_even sk ct) sk ct).
Proof.
  intros Lsk Osk Lct. pose proof (F_sizes P g V) as (HN & HD & HB & HCB & HDN & ENN & EbB & EbC & EbMu & Epk & Esk & Ect).
  pose proof (v_N P V). pose proof (v_B8 P V). assert (D * n <= 16 * 32768) by (apply Z.mul_le_mono_nonneg; lia).
  unfold kem_decaps. rewrite (ok_D _ _ _ OK), (ok_mbar _ _ _ OK), (ok_nbar _ _ _ OK), (ok_n _ _ _ OK), (ok_s _ _ _ OK), (ok_seedA _ _ _ OK), (ok_pkh _ _ _ OK), (ok_ss _ _ _ OK), (ok_sk _ _ _ OK), (ok_ct _ _ _ OK).
  rewrite pyassert_true by (apply Z.eqb_eq; lia). cbn [pybind].
  rewrite pydiv8 by lia. cbn [pybind]. rewrite pyint8 by lia. replace (8 * n * D / 8) with (D * n) by (replace (8 * n * D) with (D * n * 8) by lia; rewrite Z.div_mul; lia).
  rewrite pydiv8 by lia. cbn [pybind]. rewrite pyint8 by lia. replace (8 * 8 * D / 8) with (D * 8) by (replace (8 * 8 * D) with (D * 8 * 8) by lia; rewrite Z.div_mul; lia).
  rewrite pyassert_true by (apply Z.eqb_eq; lia). cbn [pybind].
  rewrite pydiv8 by lia. cbn [pybind]. rewrite pyint8 by lia. replace (D * n * 8 / 8) with (D * n) by (rewrite Z.div_mul; lia).
  rewrite pydiv8 by lia. cbn [pybind]. rewrite pyint8 by lia. replace (n * 8 * 16 / 8) with (16 * n) by (replace (n * 8 * 16) with (16 * n * 8) by lia; rewrite Z.div_mul; lia).
  unfold pyslice.
  replace (0 + D * n - 0) with (D * n) by lia. replace (0 + D * n + D * 8 - (0 + D * n)) with (D * 8) by lia. replace (0 + D * n) with (D * n) by lia.
  replace (0 + CB - 0) with CB by lia. replace (0 + CB + 16 - (0 + CB)) with 16 by lia.
  replace (0 + CB + 16 + D * n - (0 + CB + 16)) with (D * n) by lia.
  replace (0 + CB + 16 + D * n + 16 * n - (0 + CB + 16 + D * n)) with (16 * n) by lia.
  replace (0 + CB + 16 + D * n + 16 * n + CB - (0 + CB + 16 + D * n + 16 * n)) with CB by lia. replace (0 + CB) with CB by lia.
  set (c1 := zslice ct 0 (D * n)). set (c2 := zslice ct (D * n) (D * 8)).
  set (Sb := zslice sk (CB + 16 + D * n) (16 * n)).
  assert (LSb : zlen Sb = 16 * n) by (apply zlen_zslice; lia).
  assert (OSb : bytes_ok Sb) by (apply inrange_zslice; auto).
  assert (ESt : sk_St P sk = ztab (8 * n) (fun i => signed16 (word16 Sb i))) by reflexivity.
  set (St := sk_St P sk) in *.
  (* the loop that reads S^T *)
  assert (EL : pyfor 8 (fun i st => pyfor n (fun j '(St, pos) =>
      let* rd := read_intle16 (bits_of_bytes Sb) pos in
      let* St := pyset2 St i j (fst rd) in PyOk (St, snd rd)) st) (mconst 8 n 0, 0) = PyOk (rows 8 n St, 16 * (8 * n))).
  { rewrite mconst_mtab.
    rewrite (pyfor_seq 8 _ (fun i => (mtab 8 n (mpre (fun a b => znth St (a * n + b)) (fun _ _ => 0) i 0), 16 * (i * n)))); [|lia| |].
    - apply f_equal, f_equal2; [|reflexivity]. apply mtab_ext. intros a b Ha Hb. unfold mpre. destruct (Z.ltb_spec a 8); [reflexivity|lia].
    - apply f_equal2; [|reflexivity]. apply mtab_ext. intros a b Ha Hb. unfold mpre. destruct (Z.ltb_spec a 0); [lia|]. destruct (Z.ltb_spec b 0); [lia|]. now rewrite andb_false_r.
    - intros i Hi. rewrite (pyfor_seq n _ (fun j => (mtab 8 n (mpre (fun a b => znth St (a * n + b)) (fun _ _ => 0) i j), 16 * (i * n + j)))); [|lia|do 2 f_equal; lia|].
      + apply f_equal, f_equal2; [|lia]. apply mtab_ext. intros a b Ha Hb. unfold mpre.
        destruct (Z.ltb_spec a i), (Z.eqb_spec a i) as [?Eq|?Ne], (Z.ltb_spec a (i + 1)), (Z.ltb_spec b n), (Z.eqb_spec a (i + 1)) as [?Eq|?Ne], (Z.ltb_spec b 0); cbn; try lia; reflexivity.
      + intros j Hj. pose proof (idx_ok 8 n i j Hi Hj). rewrite read_intle16_ok by (auto; lia). cbn [pybind fst snd].
        rewrite pyset2_mtab by lia. cbn [pybind]. apply f_equal, f_equal2; [|lia]. apply mtab_ext. intros a b Ha Hb. unfold fset, mpre.
        assert (Ew : signed16 (word16 Sb (i * n + j)) = znth St (i * n + j)) by (rewrite ESt, znth_ztab by lia; reflexivity). rewrite Ew.
        destruct (Z.ltb_spec a i), (Z.eqb_spec a i) as [?Eq|?Ne], (Z.ltb_spec b j), (Z.eqb_spec b j) as [?Eq|?Ne], (Z.ltb_spec b (j + 1)); cbn; try lia; subst; reflexivity. }
  rewrite EL. cbn [pybind fst]. rewrite transpose_eq by lia. cbn [pybind].
  assert (L1 : zlen c1 = D * n) by (apply zlen_zslice; lia). assert (L2 : zlen c2 = D * 8) by (apply zlen_zslice; lia).
  rewrite unpack_eq by lia. cbn [pybind]. rewrite unpack_eq by lia. cbn [pybind]. change (8 * 8) with 64.
  change (Unpack P (8 * n) c1) with (ct_B P ct). change (Unpack P 64 c2) with (ct_C P ct).
  destruct (bs_sub_eq (ct_B P ct) (ct_C P ct) St) as (R1 & R2). rewrite R1. cbn [pybind]. rewrite R2. cbn [pybind]. clear R1 R2.
  rewrite (py_decode_spec X HX); rewrite ?(ok_B _ _ _ OK), ?(ok_D _ _ _ OK), ?(ok_mbar _ _ _ OK), ?(ok_nbar _ _ _ OK); auto;
    [|apply (ztab_mod_range P g V)].
  fold St. change (regroup (pB P) 8 (8 * pB P) (map (dc_even D (pB P)) (sub_spec q (ct_C P ct) (BS_spec q n (ct_B P ct) St)))) with (Decrypt_even sk ct).
  cbn [pybind]. set (mu' := Decrypt_even sk ct).
  assert (Lmu : zlen mu' = bytesMu P) by (unfold mu', Decrypt_even; rewrite zlen_regroup; lia).
  assert (LsA : zlen (zslice sk CB 16) = 16) by (apply zlen_zslice; lia).
  assert (Lsb : zlen (zslice sk (CB + 16) (D * n)) = D * n) by (apply zlen_zslice; lia).
  pose proof (encrypt_eq (zslice sk CB 16) (zslice sk (CB + 16) (D * n)) (zslice sk (CB + 16 + D * n + 16 * n) CB) mu' LsA Lsb ltac:(lia)) as EE.
  unfold Decaps_with. change (sk_seedA P sk) with (zslice sk CB 16). change (sk_b P sk) with (zslice sk (CB + 16) (D * n)).
  change (sk_pkh P sk) with (zslice sk (CB + 16 + D * n + 16 * n) CB).
  pose proof (Encrypt_shape P g V (zslice sk CB 16) (zslice sk (CB + 16) (D * n)) (zslice sk (CB + 16 + D * n + 16 * n) CB) mu') as ES.
  destruct (Encrypt P g (zslice sk CB 16) (zslice sk (CB + 16) (D * n)) (zslice sk (CB + 16 + D * n + 16 * n) CB) mu') as [[B2 C2] k].
  destruct ES as (LB & RB & LC & RC & Ek). rewrite EE. cbn [pybind].
  rewrite ctverify_spec; try lia; [|unfold ct_B, Unpack, unpack_spec; rewrite zlen_repack; lia|unfold ct_C, Unpack, unpack_spec; rewrite zlen_repack; lia].
  cbn [pybind].
  set (G2 := Hash P (zslice sk (CB + 16 + D * n + 16 * n) CB ++ mu') (2 * CB)) in *.
  assert (LG : zlen G2 = 2 * CB) by (apply (F_zlen_Hash P g V); lia).
  assert (Lk : zlen k = CB). { rewrite Ek. unfold zlen in *. rewrite skipn_length. lia. }
  assert (Ok : bytes_ok k). { rewrite Ek. apply inrange_skipn, (F_Hash_ok P g V). }
  rewrite ctselect_spec; [|exact Ok|apply inrange_zslice; auto|rewrite zlen_zslice; lia].
  cbn [pybind]. rewrite hash_eq. rewrite pyassert_true by (apply Z.eqb_eq; rewrite (F_zlen_Hash P g V); lia). cbn [pybind].
  f_equal. rewrite app_assoc. f_equal. f_equal.
  - unfold c1, c2. replace (zslice ct (D * n) (D * 8)) with (zslice ct (0 + D * n) (D * 8)) by (f_equal; lia).
    rewrite <- (zslice_split ct 0 (D * n) (D * 8)) by lia. apply zslice_all_n; lia.
  - destruct (list_eq_dec Z.eq_dec (ct_B P ct ++ ct_C P ct) (B2 ++ C2)); reflexivity.
Qed.
End K.
