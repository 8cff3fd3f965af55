(** C23: python3/frodokem.py and the C code compute the same bytes.

    Both sides are models: [py_pack] etc. of the Python functions (Py.v), [frodo_pack] etc. of
    the C functions.  Every theorem holds for the three parameter sets and both generators of
    A, and (where a build appears) for every build of the C code. *)
From Verif Require Import CSem Params Util UtilSpec UtilProofs KeccakSpec AesSpec MatrixSpec Macrify MatrixProofs
  EncodeProofs PropMatrix FrodoSpec Kem KemProofs KemWp FrodoFacts PropKem Py PyProofs PyKem.
Local Opaque AES128 SHAKE128 SHAKE256.

Inductive which := Frodo640 | Frodo976 | Frodo1344.
Definition c_params (w : which) : params := match w with Frodo640 => frodo640 | Frodo976 => frodo976 | Frodo1344 => frodo1344 end.
(** FrodoKEM("FrodoKEM-640-AES") ...: the object made by the constructor, python3/frodokem.py:14-46 *)
Definition py_object (w : which) (g : genA) : py frodo :=
  let pg := match g with GenAES => Gen_AES128 | GenSHAKE => Gen_SHAKE128 end in
  match w with Frodo640 => setParamsFrodo640 pg | Frodo976 => setParamsFrodo976 pg | Frodo1344 => setParamsFrodo1344 pg end.
(** A Python matrix is the list of its rows; the C code keeps the rows one after the other. *)
Definition matrix_of (r c : Z) (l : list Z) : matrix := ztab r (fun i => ztab c (fun j => znth l (i * c + j))).
Example matrix_of_ex : matrix_of 2 3 [1; 2; 3; 4; 5; 6] = [[1; 2; 3]; [4; 5; 6]]. Proof. reflexivity. Qed.

Lemma c_params_valid w : valid (c_params w).
Proof. destruct w; [apply valid_640|apply valid_976|apply valid_1344]. Qed.

(** The constructor computes the tables and sizes of the C parameter sets. *)
Theorem C23_parameters : forall w g, exists X, py_object w g = PyOk X /\
  let P := c_params w in
  T_chi X = pCDF P /\ fD X = pD P /\ fq X = 2 ^ pD P /\ fn X = pN P /\ fB X = pB P /\ nbar X = 8 /\ mbar X = 8 /\
  len_pk_bytes X = pkBytes P /\ len_sk_bytes X = skBytes P /\ len_ct_bytes X = ctBytes P /\ len_ss_bytes X = pCB P /\
  len_mu_bytes X = bytesMu P /\ fshake X = (if pRate P =? 168 then Shake128 else Shake256).
Proof.
  intros w g; destruct w, g; (eexists; split; [vm_compute; reflexivity|]); cbv zeta;
    repeat match goal with |- _ /\ _ => split | |- _ = _ => vm_compute; reflexivity end.
Qed.
Print Assumptions C23_parameters.
Lemma object_ok w g X : py_object w g = PyOk X -> pyok X (c_params w) g.
Proof.
  intros E. destruct w, g; vm_compute in E; injection E as <-; constructor; vm_compute; reflexivity.
Qed.

Lemma dc_even_dc D B c : 1 <= B < D -> 0 <= c < 2 ^ D ->
  dc_even D B c = dc D B c <-> c mod 2 ^ (D - B + 1) <> 2 ^ (D - B - 1).
Proof.
  intros HB Hc. set (h := 2 ^ (D - B - 1)). assert (Hh : 0 < h) by (apply Z.pow_pos_nonneg; lia).
  assert (E4 : 2 ^ (D - B + 1) = 4 * h). { unfold h. replace (D - B + 1) with (2 + (D - B - 1)) by lia. rewrite Z.pow_add_r by lia. reflexivity. }
  set (m := 2 ^ B). assert (Hm : 2 <= m). { unfold m. change 2 with (2 ^ 1) at 1. apply Z.pow_le_mono_r; lia. }
  assert (ED : 2 ^ D = m * (2 * h)). { unfold m, h. replace (2 * 2 ^ (D - B - 1)) with (2 ^ (1 + (D - B - 1))) by (rewrite Z.pow_add_r by lia; reflexivity). rewrite <- Z.pow_add_r by lia. f_equal. lia. }
  assert (Em2 : m mod 2 = 0). { unfold m. replace B with (1 + (B - 1)) by lia. rewrite Z.pow_add_r by lia. change (2 ^ 1) with 2. rewrite Z.mul_comm. apply Z.mod_mul. lia. }
  unfold dc_even, dc, pyround. rewrite (Z.mod_small c) by exact Hc. fold m. rewrite E4, ED.
  (* c = f * 2h + r *)
  set (f := c / (2 * h)). set (r := c mod (2 * h)).
  pose proof (Z.div_mod c (2 * h) ltac:(lia)) as Ec. fold f r in Ec. pose proof (Z.mod_pos_bound c (2 * h) ltac:(lia)) as Hr. fold r in Hr.
  assert (Hf : 0 <= f) by (apply Z.div_pos; lia).
  assert (Ef : c * m / (m * (2 * h)) = f). { rewrite (Z.mul_comm c m). rewrite Z.div_mul_cancel_l by lia. reflexivity. }
  rewrite Ef.
  assert (Er : c * m - f * (m * (2 * h)) = m * r) by (rewrite Ec; ring). rewrite Er.
  assert (Eu : (2 * c * m + m * (2 * h)) / (2 * (m * (2 * h))) = (c + h) / (2 * h)).
  { replace (2 * c * m + m * (2 * h)) with (2 * m * (c + h)) by ring. replace (2 * (m * (2 * h))) with (2 * m * (2 * h)) by ring. apply Z.div_mul_cancel_l; lia. }
  rewrite Eu.
  assert (Ediv : (c + h) / (2 * h) = if r <? h then f else f + 1).
  { rewrite Ec. destruct (Z.ltb_spec r h).
    - symmetry; apply (Z.div_unique _ _ _ (r + h)); [left; lia|ring].
    - symmetry; apply (Z.div_unique _ _ _ (r - h)); [left; lia|ring]. }
  rewrite Ediv.
  assert (Emod : c mod (4 * h) = r + 2 * h * (f mod 2)).
  { symmetry. apply (Z.mod_unique _ _ (f / 2)).
    - left. pose proof (Z.mod_pos_bound f 2 ltac:(lia)). assert (f mod 2 = 0 \/ f mod 2 = 1) as [-> | ->] by lia; lia.
    - rewrite Ec at 1. pose proof (Z.div_mod f 2 ltac:(lia)) as Ef2. rewrite Ef2 at 1. ring. }
  rewrite Emod.
  assert (Hcmp : forall a b, (m * a < m * b <-> a < b) /\ (m * a = m * b <-> a = b)).
  { intros a b. split; [symmetry; apply Z.mul_lt_mono_pos_l; lia|split; [apply Z.mul_reg_l; lia|intros ->; reflexivity]]. }
  replace (2 * (m * r)) with (m * (2 * r)) by ring.
  destruct (Z.ltb_spec (m * (2 * r)) (m * (2 * h))) as [H1|H1].
  { apply (proj1 (proj1 (Hcmp _ _))) in H1. destruct (Z.ltb_spec r h); [|lia]. split; [intros _|reflexivity].
    pose proof (Z.mod_pos_bound f 2 ltac:(lia)). assert (f mod 2 = 0 \/ f mod 2 = 1) as [-> | ->] by lia; lia. }
  destruct (Z.ltb_spec (m * (2 * h)) (m * (2 * r))) as [H2|H2].
  { apply (proj1 (proj1 (Hcmp _ _))) in H2. destruct (Z.ltb_spec r h); [lia|]. split; [intros _|reflexivity].
    pose proof (Z.mod_pos_bound f 2 ltac:(lia)). assert (f mod 2 = 0 \/ f mod 2 = 1) as [-> | ->] by lia; lia. }
  assert (E0 : m * (2 * r) = m * (2 * h)) by lia. apply (proj1 (proj2 (Hcmp _ _))) in E0. assert (Erh : r = h) by lia.
  destruct (Z.ltb_spec r h); [lia|]. rewrite Erh. pose proof (Zmod_even f) as Hev.
  destruct (Z.even f).
  - rewrite Hev. split; [|lia]. intros E. exfalso.
    assert (E2 : (f mod m) mod 2 = ((f + 1) mod m) mod 2) by (rewrite E; reflexivity).
    assert (Hmm : forall x, (x mod m) mod 2 = x mod 2).
    { intros x. pose proof (Z.div_mod m 2 ltac:(lia)) as Q. rewrite Em2 in Q.
      rewrite (Z.div_mod x m) at 2 by lia. rewrite Q at 2.
      replace ((2 * (m / 2) + 0) * (x / m) + x mod m) with (x mod m + (m / 2 * (x / m)) * 2) by ring. rewrite Z.mod_add by lia. reflexivity. }
    rewrite !Hmm in E2. rewrite Z.add_mod, Hev in E2 by lia. discriminate E2.
  - rewrite Hev. split; [lia|]. reflexivity.
Qed.

Section Obj.
Variables (w : which) (g : genA) (X : frodo).
Hypothesis HO : py_object w g = PyOk X.
Let P := c_params w.
Let V : valid P := c_params_valid w.
Let OK : pyok X P g := object_ok w g X HO.

(** ** Packing and unpacking *)
Theorem C23_pack : forall r c l out, 0 < r -> 0 < c -> zlen l = r * c -> u16s_ok l ->
  8 * zlen out = pD P * zlen l ->
  exists b, py_pack X (matrix_of r c l) = PyOk b /\
            returns (frodo_pack out (zlen out) l (zlen l) (pD P)) b.
Proof.
  intros r c l out Hr Hc Hl Hu Ho. pose proof (v_D P V). exists (pack_spec (pD P) (zlen out) l). split.
  - change (matrix_of r c l) with (rows r c l). rewrite (pack_eq X P g V OK r c l); auto.
    + unfold Pack. do 2 f_equal. rewrite <- Ho, Z.mul_comm, Z.div_mul; lia.
    + rewrite <- Hl, <- Ho, Z.mul_comm. apply Z.mod_mul; lia.
  - apply wp_returns, frodo_pack_wp; auto. lia.
Qed.
Theorem C23_unpack : forall r c b out, 0 <= r -> 0 < c -> zlen out = r * c -> bytes_ok b ->
  8 * zlen b = pD P * zlen out ->
  exists l, py_unpack X b r c = PyOk (matrix_of r c l) /\ zlen l = r * c /\
            returns (frodo_unpack out (zlen out) b (zlen b) (pD P)) l.
Proof.
  intros r c b out Hr Hc Ho Hb Hl. pose proof (v_D P V). exists (unpack_spec (pD P) (zlen out) b). split; [|split].
  - rewrite (unpack_eq X P g V OK r c b); auto; [|lia]. unfold Unpack. now rewrite Ho.
  - rewrite <- Ho. apply zlen_repack. apply zlen_nonneg.
  - apply wp_returns, frodo_unpack_wp; auto. lia.
Qed.

(** ** Sampling: the C code stores the residue modulo 2^16 of Python's signed integer. *)
Theorem C23_sample : forall r c s, 0 <= r -> 0 <= c -> zlen s = r * c -> u16s_ok s ->
  exists E, py_sample_matrix X s r c = PyOk (matrix_of r c E) /\ zlen E = r * c /\
            returns (frodo_sample_n (pCDF P) s (zlen s)) (map (fun e => e mod 65536) E).
Proof.
  intros r c s Hr Hc Hs Hu. pose proof (v_cdf_len P V) as HT. pose proof (v_cdf P V) as HF.
  exists (map (sample_spec (pCDF P)) s). split; [|split].
  - rewrite py_sample_matrix_spec; rewrite ?(ok_T _ _ _ OK); auto; lia.
  - now rewrite zlen_map.
  - apply wp_returns. eapply wp_mono; [apply frodo_sample_n_wp; auto; lia|]. cbv beta. intros x ->. rewrite map_map. reflexivity.
Qed.

(** ** Encoding and decoding *)
Theorem C23_encode : forall mu out, zlen mu = 8 * pB P -> bytes_ok mu -> zlen out = 64 ->
  exists K, py_encode X mu = PyOk (matrix_of 8 8 K) /\ zlen K = 64 /\ returns (frodo_key_encode P out mu) K.
Proof.
  intros mu out Hmu Hb Ho. exists (encode_spec (pD P) (pB P) mu). split; [|split].
  - rewrite (py_encode_spec X (HX X P g V OK)); rewrite ?(ok_B _ _ _ OK), ?(ok_D _ _ _ OK); auto; [lia|apply (ok_mbar _ _ _ OK)|apply (ok_nbar _ _ _ OK)].
  - unfold encode_spec. rewrite zlen_map. apply zlen_regroup. lia.
  - apply C13_encode; auto.
Qed.

Lemma py_decode_eq M : zlen M = 64 -> inrange (2 ^ pD P) M ->
  py_decode X (matrix_of 8 8 M) = PyOk (regroup (pB P) 8 (8 * pB P) (map (dc_even (pD P) (pB P)) M)).
Proof.
  intros LM RM. change (matrix_of 8 8 M) with (rows 8 8 M).
  rewrite (py_decode_spec X (HX X P g V OK)); rewrite ?(ok_B _ _ _ OK), ?(ok_D _ _ _ OK); auto; [apply (ok_mbar _ _ _ OK)|apply (ok_nbar _ _ _ OK)].
Qed.
(** Decoding: Python rounds ties to even, C rounds them up.  The results are the same
    exactly if no entry is a tie whose lower neighbour is even, i.e. q/2^(B+1) modulo
    2q/2^B. *)
Theorem C23_decode : forall M out, zlen M = 64 -> inrange (2 ^ pD P) M -> zlen out = 8 * pB P ->
  exists m_py m_c, py_decode X (matrix_of 8 8 M) = PyOk m_py /\ returns (frodo_key_decode P out M) m_c /\
    (m_py = m_c <-> forall t, 0 <= t < 64 -> znth M t mod 2 ^ (pD P - pB P + 1) <> 2 ^ (pD P - pB P - 1)).
Proof.
  intros M out LM RM Lo. pose proof (v_B P V) as HB. pose proof (v_D P V) as HD. pose proof (v_B8 P V) as HB8.
  exists (regroup (pB P) 8 (8 * pB P) (map (dc_even (pD P) (pB P)) M)), (decode_spec (pD P) (pB P) M).
  assert (UM : u16s_ok M) by (eapply inrange_mono; [apply (pow2_le_16 (pD P)); lia|exact RM]).
  split; [|split].
  - apply py_decode_eq; assumption.
  - apply C19_key_decode; auto.
  - assert (R : forall f, (forall c, 0 <= f c < 2 ^ pB P) -> inrange (2 ^ pB P) (map f M) /\ zlen (map f M) = 64).
    { intros f Hf. split; [|now rewrite zlen_map]. apply inrange_intro. rewrite zlen_map. intros t Ht. rewrite znth_map by lia. apply Hf. }
    assert (Hp : 0 < 2 ^ pB P) by (apply Z.pow_pos_nonneg; lia).
    destruct (R (dc_even (pD P) (pB P))) as (R1 & L1); [intros; apply Z.mod_pos_bound; lia|].
    destruct (R (dc (pD P) (pB P))) as (R2 & L2); [intros; apply Z.mod_pos_bound; lia|].
    unfold decode_spec. split.
    + intros E t Ht. apply (dc_even_dc (pD P) (pB P) (znth M t)); [lia|apply inrange_znth; auto; lia|].
      assert (E2 : map (dc_even (pD P) (pB P)) M = map (dc (pD P) (pB P)) M).
      { rewrite <- (regroup_self (pB P) 64 (map (dc_even (pD P) (pB P)) M)), <- (regroup_self (pB P) 64 (map (dc (pD P) (pB P)) M)) by (auto; lia).
        rewrite <- (regroup_regroup (pB P) 8 64 (8 * pB P) (map (dc_even (pD P) (pB P)) M)) by (auto; lia).
        rewrite <- (regroup_regroup (pB P) 8 64 (8 * pB P) (map (dc (pD P) (pB P)) M)) by (auto; lia). now rewrite E. }
      apply (f_equal (fun l => znth l t)) in E2. rewrite !znth_map in E2 by lia. exact E2.
    + intros H. f_equal. apply list_ext; [now rewrite !zlen_map|]. rewrite zlen_map. intros t Ht. rewrite !znth_map by lia.
      apply dc_even_dc; [lia|apply inrange_znth; auto|apply H; lia].
Qed.

(** ** The public matrix A: row i, column j, modulo q, is that of the FrodoKEM definition
    which C26 proves of the C code. *)
Theorem C23_gen : forall seedA, zlen seedA = 16 ->
  py_gen X seedA = PyOk (ztab (pN P) (fun i => ztab (pN P) (fun j => A_spec g (pN P) seedA i j mod 2 ^ pD P))).
Proof. intros seedA H. exact (gen_eq X P g V OK seedA H). Qed.

(** ** Key generation and encapsulation: given the same random bytes, the same keys, the same
    ciphertext and the same secret, for every build of the C code. *)
Theorem C23_keygen : forall C rb rc mem pk sk rng s seedSE z, cP C = P -> cGen C = g ->
  bytestr (pCB P) s -> bytestr (pCB P) seedSE -> bytestr 16 z ->
  rng (2 * pCB P + 16) = PyOk (s ++ seedSE ++ z) ->
  delivers rb (2 * pCB P + 16) (s ++ seedSE ++ z) rc ->
  region mem pk (pkBytes P) -> region mem sk (skBytes P) -> disjoint pk (pkBytes P) sk (skBytes P) ->
  exists PK SK l, kem_keygen X rng = PyOk (PK, SK) /\
    returns (crypto_kem_keypair C rb mem pk sk) (stored (stored mem pk PK) sk SK, l, 0).
Proof.
  intros C rb rc mem pk sk rng s seedSE z EP Eg Hs Hse Hz Hrng Hrb Rpk Rsk HD.
  replace (2 * pCB P + 16) with (pCB P + pCB P + 16) in Hrng by lia.
  pose proof (keygen_eq X P g V OK rng s seedSE z Hrng (proj1 Hs) (proj1 Hse) (proj1 Hz) (proj2 Hs)) as K.
  pose proof (C05_keypair C rb rc mem pk sk s seedSE z) as H. cbv zeta in H. rewrite EP, Eg in H. specialize (H V Hs Hse Hz Hrb Rpk Rsk HD).
  destruct (KeyGen P g s seedSE z) as [PK SK]. destruct H as (l & H). exists PK, SK, l. split; assumption.
Qed.
Theorem C23_encaps : forall C rb rc mem ct ss pk rng PK mu, cP C = P -> cGen C = g -> build_ok C ->
  bytestr (bytesMu P) mu -> rng (bytesMu P) = PyOk mu -> delivers rb (bytesMu P) mu rc ->
  holds mem pk (pkBytes P) PK -> bytes_ok PK ->
  region mem ct (ctBytes P) -> region mem ss (pCB P) -> disjoint ct (ctBytes P) pk (pkBytes P) ->
  exists CT SS l, kem_encaps X rng PK = PyOk (CT, SS) /\
    returns (crypto_kem_enc C rb mem ct ss pk) (stored (stored mem ct CT) ss SS, l, 0).
Proof.
  intros C rb rc mem ct ss pk rng PK mu EP Eg Hb Hmu Hrng Hrb Hpk Bpk Rct Rss HD.
  assert (LPK : zlen PK = pkBytes P). { destruct Hpk as ((H1 & H2) & <-). apply zlen_zslice; pose proof (F_sizes P g V); lia. }
  pose proof (encaps_eq X P g V OK rng PK mu LPK Hrng (proj1 Hmu)) as K.
  pose proof (C05_enc C rb rc mem ct ss pk PK mu) as H. cbv zeta in H. rewrite EP, Eg in H. specialize (H V Hb Hmu Hrb Hpk Bpk Rct Rss HD).
  destruct (Encaps P g PK mu) as [CT SS]. destruct H as (l & H). exists CT, SS, l. split; assumption.
Qed.

Lemma Decrypt_even_eq sk ct :
  (forall t, 0 <= t < 64 -> znth (plain P sk ct) t mod 2 ^ (pD P - pB P + 1) <> 2 ^ (pD P - pB P - 1)) ->
  Decrypt_even P sk ct = Decrypt P sk ct.
Proof.
  intros H. unfold Decrypt_even, Decrypt, decode_spec. fold (plain P sk ct). f_equal.
  assert (L : zlen (plain P sk ct) = 64) by (apply zlen_ztab; lia).
  apply list_ext; [now rewrite !zlen_map|]. rewrite zlen_map, L. intros t Ht. rewrite !znth_map by lia.
  apply dc_even_dc; [pose proof (v_B P V); pose proof (v_D P V); lia| |apply H; lia].
  apply inrange_znth; [|lia]. apply (ztab_mod_range P g V).
Qed.

(** ** Decapsulation, for every ciphertext and every secret key: the same secret, unless the
    matrix C - B'S has an entry on a tie.  [plain] is that matrix. *)
Theorem C23_decaps : forall C mem ss ct sk CT SK, cP C = P -> cGen C = g -> build_ok C ->
  holds mem sk (skBytes P) SK -> bytes_ok SK -> sk mod 2 = 0 ->
  holds mem ct (ctBytes P) CT -> bytes_ok CT -> region mem ss (pCB P) ->
  (forall t, 0 <= t < 64 -> znth (plain P SK CT) t mod 2 ^ (pD P - pB P + 1) <> 2 ^ (pD P - pB P - 1)) ->
  exists SS l, kem_decaps X SK CT = PyOk SS /\
    returns (crypto_kem_dec C mem ss ct sk) (stored mem ss SS, l, 0).
Proof.
  intros C mem ss ct sk CT SK EP Eg Hb Hsk Bsk Hal Hct Bct Rss HT.
  pose proof (F_sizes P g V) as HZ.
  assert (LSK : zlen SK = skBytes P). { destruct Hsk as ((H1 & H2) & <-). apply zlen_zslice; lia. }
  assert (LCT : zlen CT = ctBytes P). { destruct Hct as ((H1 & H2) & <-). apply zlen_zslice; lia. }
  pose proof (decaps_eq X P g V OK SK CT LSK Bsk LCT) as K. rewrite (Decrypt_even_eq SK CT HT) in K.
  pose proof (C05_dec C mem ss ct sk CT SK) as H. cbv zeta in H. rewrite EP, Eg in H. specialize (H V Hb Hsk Bsk Hal Hct Bct Rss).
  destruct H as (l & H). exists (Decaps P g SK CT), l. split; [exact K|exact H].
Qed.
(** Without the condition on ties: Python computes Decaps with the message decoded
    half-to-even, and so agrees if that makes no difference to the message. *)
Theorem C23_decaps_total : forall SK CT, bytestr (skBytes P) SK -> zlen CT = ctBytes P ->
  exists SS, kem_decaps X SK CT = PyOk SS /\ zlen SS = pCB P /\
             (py_decode X (matrix_of 8 8 (plain P SK CT)) = PyOk (Decrypt P SK CT) -> SS = Decaps P g SK CT).
Proof.
  intros SK CT (L & B) LC. eexists. split; [apply (decaps_eq X P g V OK); auto|]. pose proof (F_sizes P g V) as HZ. split.
  - unfold Decaps_with. destruct (Encrypt P g _ _ _ _) as [[B2 C2] k]. apply (F_zlen_Hash P g V); lia.
  - rewrite py_decode_eq; [|apply zlen_ztab; lia|apply (ztab_mod_range P g V)].
    intros E. unfold Decaps. replace (Decrypt P SK CT) with (Decrypt_even P SK CT); [reflexivity|].
    apply (f_equal (fun r => match r with PyOk m => m | _ => [] end)) in E. exact E.
Qed.

(** ** Across implementations: what one side encapsulates to a key of either side, the Python
    code decapsulates to the same secret, if the noise of the exchange is strictly within the
    bound. *)
Theorem C23_exchange : forall rng1 rng2 s seedSE z mu PK SK CT SS,
  bytestr (pCB P) s -> bytestr (pCB P) seedSE -> bytestr 16 z -> bytestr (bytesMu P) mu ->
  rng1 (2 * pCB P + 16) = PyOk (s ++ seedSE ++ z) -> rng2 (bytesMu P) = PyOk mu ->
  kem_keygen X rng1 = PyOk (PK, SK) -> kem_encaps X rng2 PK = PyOk (CT, SS) ->
  (forall t, 0 <= t < 64 -> Z.abs (noise P seedSE (Hash P PK (pCB P)) mu t) < 2 ^ (pD P - pB P - 1)) ->
  kem_decaps X SK CT = PyOk SS.
Proof.
  intros rng1 rng2 s seedSE z mu PK SK CT SS Hs Hse Hz Hmu Hr1 Hr2 HK HE HN.
  replace (2 * pCB P + 16) with (pCB P + pCB P + 16) in Hr1 by lia.
  rewrite (keygen_eq X P g V OK rng1 s seedSE z Hr1 (proj1 Hs) (proj1 Hse) (proj1 Hz) (proj2 Hs)) in HK. apply (f_equal (fun r => match r with PyOk m => m | _ => ([], []) end)) in HK. change (KeyGen P g s seedSE z = (PK, SK)) in HK.
  pose proof (KeyGen_parts P g V s seedSE z (proj1 Hs)) as KP.
  pose proof (Decrypt_Encaps P g V s seedSE z mu (proj1 Hs) (proj1 Hmu) (proj2 Hmu)) as HD.
  pose proof (Encaps_reencrypt P g V s seedSE z mu (proj1 Hs)) as HR.
  pose proof (fun t => plain_Encaps P g V s seedSE z mu t (proj1 Hs)) as HP.
  rewrite HK in *. destruct KP as (LPK & BPK & LSK & BSK & _). specialize (BSK (proj2 Hs)).
  rewrite (encaps_eq X P g V OK rng2 PK mu LPK Hr2 (proj1 Hmu)) in HE. apply (f_equal (fun r => match r with PyOk m => m | _ => ([], []) end)) in HE. change (Encaps P g PK mu = (CT, SS)) in HE.
  pose proof (Encaps_shape P g V PK mu) as ES.
  rewrite HE in *. destruct HR as (HR & HSS). destruct ES as (LCT & BCT & _).
  pose proof (v_B P V) as VB. pose proof (v_D P V) as VD. pose proof (v_B8 P V) as VB8. set (h := 2 ^ (pD P - pB P - 1)) in *.
  assert (Hh : 0 < h) by (apply Z.pow_pos_nonneg; lia).
  assert (Hok : Decrypt P SK CT = mu). { apply HD. intros t Ht. specialize (HN t Ht). exists 0. fold h. lia. }
  assert (HT : Decrypt_even P SK CT = Decrypt P SK CT).
  { apply Decrypt_even_eq. fold h. intros t Ht E. specialize (HN t Ht). specialize (HP t Ht).
    assert (E4 : 2 ^ (pD P - pB P + 1) = 4 * h). { unfold h. replace (pD P - pB P + 1) with (2 + (pD P - pB P - 1)) by lia. rewrite Z.pow_add_r by lia. reflexivity. }
    assert (E2 : 2 ^ (pD P - pB P) = 2 * h). { unfold h. change (2 * 2 ^ (pD P - pB P - 1)) with (2 ^ 1 * 2 ^ (pD P - pB P - 1)). rewrite <- Z.pow_add_r by lia. f_equal. lia. }
    assert (ED : 2 ^ pD P = 2 * h * 2 ^ pB P). { rewrite <- E2, <- Z.pow_add_r by lia. f_equal. lia. }
    rewrite E4 in E.
    assert (Eenc : exists a, znth (encode_spec (pD P) (pB P) mu) t = a * (2 * h)).
    { unfold encode_spec. rewrite znth_map by (rewrite zlen_regroup; lia). rewrite E2. eexists; reflexivity. }
    destruct Eenc as (a & Ea). rewrite Ea in HP.
    set (e := noise P seedSE (Hash P PK (pCB P)) mu t) in *. set (m := znth (plain P SK CT) t) in *.
    assert (X2 : m mod (2 * h) = h).
    { pose proof (Z.div_mod m (4 * h) ltac:(lia)) as Q. rewrite E in Q. symmetry. apply (Z.mod_unique _ _ (2 * (m / (4 * h)))); [left; lia|]. rewrite Q at 1. ring. }
    assert (X3 : m mod (2 * h) = e mod (2 * h)).
    { assert (Hdd : forall x, (x mod 2 ^ pD P) mod (2 * h) = x mod (2 * h)).
      { intros x. rewrite (Z.div_mod x (2 ^ pD P)) at 2 by (rewrite ED; pose proof (Z.pow_pos_nonneg 2 (pB P)); nia).
        rewrite ED at 2. replace (2 * h * 2 ^ pB P * (x / 2 ^ pD P) + x mod 2 ^ pD P) with (x mod 2 ^ pD P + 2 ^ pB P * (x / 2 ^ pD P) * (2 * h)) by ring.
        rewrite Z.mod_add by lia. reflexivity. }
      rewrite <- (Hdd m), HP, Hdd. rewrite Z.add_comm, Z.mod_add by lia. reflexivity. }
    rewrite X2 in X3. clear - X3 HN Hh. destruct (Z_lt_le_dec e 0).
    - rewrite <- (Z.mod_add e 1 (2 * h)) in X3 by lia. rewrite Z.mod_small in X3; lia.
    - rewrite Z.mod_small in X3; lia. }
  rewrite (decaps_eq X P g V OK SK CT LSK BSK LCT), HT. f_equal. change (Decaps P g SK CT = SS).
  destruct (Decaps_cases P g V SK CT LCT BCT) as (H1 & _).
  rewrite H1; [rewrite Hok, <- HSS; reflexivity|]. unfold accepted. rewrite Hok; exact HR.
Qed.
End Obj.
Print Assumptions C23_pack.
Print Assumptions C23_unpack.
Print Assumptions C23_sample.
Print Assumptions C23_encode.
Print Assumptions C23_decode.
Print Assumptions C23_gen.
Print Assumptions C23_keygen.
Print Assumptions C23_encaps.
Print Assumptions C23_decaps.
Print Assumptions C23_decaps_total.
Print Assumptions C23_exchange.

(** The equality is false on ties: on the matrix whose first entry is q/2^(B+1), C decodes 1
    and Python decodes 0. *)
Theorem C23_decode_tie_refuted : exists w X M, py_object w GenAES = PyOk X /\ inrange (2 ^ pD (c_params w)) M /\ zlen M = 64 /\
  exists m_py m_c, py_decode X (matrix_of 8 8 M) = PyOk m_py /\ returns (frodo_key_decode (c_params w) (uninit 16) M) m_c /\ m_py <> m_c.
Proof.
  exists Frodo640. eexists. exists (4096 :: zrep 63 0). split; [vm_compute; reflexivity|]. split.
  { change (4096 :: zrep 63 0) with ([4096] ++ zrep 63 0). apply inrange_app; [constructor; [vm_compute; split; congruence|constructor]|apply inrange_zrep0; reflexivity]. }
  split; [reflexivity|].
  do 2 eexists. split; [vm_compute; reflexivity|]. split; [eexists; vm_compute; reflexivity|]. discriminate.
Qed.
Print Assumptions C23_decode_tie_refuted.

(** The hypotheses are met: FrodoKEM-976 with SHAKE, the big-endian reference build. *)
Example C23_hyps : exists X, py_object Frodo976 GenSHAKE = PyOk X /\ cP C976 = c_params Frodo976 /\ cGen C976 = GenSHAKE /\ build_ok C976 /\
  delivers rand976 (bytesMu frodo976) (ztab 24 (fun i => (i * 7 + 3) mod 256)) 0 /\
  bytestr (bytesMu frodo976) (ztab 24 (fun i => (i * 7 + 3) mod 256)).
Proof.
  eexists. split; [vm_compute; reflexivity|]. split; [reflexivity|]. split; [reflexivity|]. split; [intros H; now elim H|].
  split; [exists []; reflexivity|]. apply bytestr_ztab; [lia|]. intros; apply Z.mod_pos_bound; lia.
Qed.
(** ... and no entry of a matrix of exact encodings, or of one with small noise, is a tie. *)
Example C23_no_tie : forall t, 0 <= t < 64 -> znth (ztab 64 (fun i => (i mod 4) * 8192 + i - 32)) t mod 2 ^ (15 - 2 + 1) <> 2 ^ (15 - 2 - 1).
Proof. intros t Ht. rewrite znth_ztab by lia. change (2 ^ (15 - 2 + 1)) with 16384. change (2 ^ (15 - 2 - 1)) with 4096. dlia. Qed.
