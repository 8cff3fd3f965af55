(** Property C59: the secrets that SHAKE and the matrix product leave behind.

    keypair, enc and dec clear their own arrays (C18), but not the copies in the frames of the
    functions they call.  The theorems say exactly what the last call of SHAKE leaves, and
    what the product S' A leaves in its array sp. *)
From Verif Require Import CSem Params Util UtilSpec UtilProofs Fips202 KeccakSpec KeccakProofs KeccakInj ShakeProofs AesSpec
  MatrixSpec Macrify MatrixProofs MatrixProofs2 EncodeProofs PropMatrix FrodoSpec Kem KemProofs KemWp FrodoFacts PropKem
  Residue ResidueProofs.

(** SHAKE128 and SHAKE256 of FIPS 202, by rate. *)
Definition Xof (r : Z) (M : list Z) (n : Z) : list Z := if r =? 168 then SHAKE128 M n else SHAKE256 M n.
Lemma Xof_r r M n : r = 168 \/ r = 136 -> Xof r M n = SHAKE_r r M n.
Proof. intros [-> | ->]; unfold Xof; cbn [Z.eqb Pos.eqb]; rewrite ?SHAKE128_r, ?SHAKE256_r; reflexivity. Qed.

(** ** The models that show the remains compute what the models of the other properties do:
    same result, same trace, same errors. *)
Theorem C59_shake_same : forall r out n inp m,
  shake r out n inp m = bind (shake_left r out n inp m) (fun f => ret (rm_out f)).
Proof. exact shake_left_faithful. Qed.
Print Assumptions C59_shake_same.

Theorem C59_absorb_same : forall s r m n p,
  keccak_absorb s r m n p = bind (keccak_absorb_left s r m n p) (fun '(s', _) => ret s').
Proof. exact absorb_left_faithful. Qed.
Print Assumptions C59_absorb_same.
Theorem C59_sa_same : forall C ebase out s e seedA,
  sa_plus_e C ebase out s e seedA =
  bind (sa_plus_e_left C ebase out s e seedA) (fun '(o, e', _) => ret (o, e')).
Proof. exact sa_left_faithful. Qed.
Print Assumptions C59_sa_same.

Theorem C59_keypair_same : forall C rb mem pk sk,
  crypto_kem_keypair C rb mem pk sk =
  bind (crypto_kem_keypair_left C rb mem pk sk) (fun '(mem', l, r, _) => ret (mem', l, r)).
Proof.
  intros. unfold crypto_kem_keypair, crypto_kem_keypair_left; cbv zeta.
  repeat first
    [ rewrite bind_ret_l; reflexivity
    | rewrite shake_to_left_faithful with (n := bytesH (cP C)), !bind_bind; apply bind_cong; intros (? & ?); rewrite bind_ret_l
    | rewrite bind_bind; apply bind_cong; intros ?
    | match goal with |- match ?x with _ => _ end = _ => destruct x end ].
Qed.
Print Assumptions C59_keypair_same.
Theorem C59_enc_same : forall C rb mem ct ss pk,
  crypto_kem_enc C rb mem ct ss pk =
  bind (crypto_kem_enc_left C rb mem ct ss pk) (fun '(mem', l, r, _, _) => ret (mem', l, r)).
Proof.
  intros. unfold crypto_kem_enc, crypto_kem_enc_left; cbv zeta.
  repeat first
    [ rewrite bind_ret_l; reflexivity
    | rewrite sa_left_faithful, !bind_bind; apply bind_cong; intros ((? & ?) & ?); rewrite bind_ret_l
    | rewrite shake_to_left_faithful with (o := ss), !bind_bind; apply bind_cong; intros (? & ?); rewrite bind_ret_l
    | rewrite bind_bind; apply bind_cong; intros ?
    | match goal with |- match ?x with _ => _ end = _ => destruct x end ].
Qed.
Print Assumptions C59_enc_same.
Theorem C59_dec_same : forall C mem ss ct sk,
  crypto_kem_dec C mem ss ct sk =
  bind (crypto_kem_dec_left C mem ss ct sk) (fun '(mem', l, r, _, _) => ret (mem', l, r)).
Proof.
  intros. unfold crypto_kem_dec, crypto_kem_dec_left; cbv zeta.
  repeat first
    [ rewrite bind_ret_l; reflexivity
    | reflexivity
    | rewrite sa_left_faithful, !bind_bind; apply bind_cong; intros ((? & ?) & ?); rewrite bind_ret_l
    | rewrite shake_to_left_faithful with (o := ss), !bind_bind; apply bind_cong; intros (? & ?); rewrite bind_ret_l
    | rewrite bind_bind; apply bind_cong; intros ?
    | match goal with |- match ?x with _ => _ end = _ => destruct x end ].
Qed.
Print Assumptions C59_dec_same.

(** ** The permutation loses nothing: different states stay different. *)
Theorem C59_permutation_injective : forall s1 s2 s',
  zlen s1 = 25 -> zlen s2 = 25 -> u64s_ok s1 -> u64s_ok s2 ->
  returns (KeccakF1600_StatePermute s1) s' -> returns (KeccakF1600_StatePermute s2) s' -> s1 = s2.
Proof.
  intros s1 s2 s' L1 L2 U1 U2 H1 H2.
  pose proof (KeccakF1600_wp s1 L1 U1) as K1. pose proof (KeccakF1600_wp s2 L2 U2) as K2.
  apply wp_returns in K1, K2. pose proof (returns_inj _ _ _ H1 K1) as E1. pose proof (returns_inj _ _ _ H2 K2) as E2.
  apply lanes_bits_inj; [exact L1|exact L2|exact U1|exact U2|].
  apply keccak_f_inj; [apply zlen_lanes_bits|apply zlen_lanes_bits|].
  rewrite (keccak_f_lanes s1 U1 L1), (keccak_f_lanes s2 U2 L2), <- E1, <- E2. reflexivity.
Qed.
Print Assumptions C59_permutation_injective.

(** ** One call of shake128 (rate 168) or shake256 (rate 136): the end of the output stays in t,
    the end of the input stays in the block of keccak_absorb, and s determines it. *)
Lemma block_end r p a f n : 0 < r -> zlen p mod r = 0 -> zlen a < r -> left_by r (p ++ a) n f ->
  zslice (rm_block f) 0 (zlen a) = a.
Proof.
  intros Hr Hp La (_ & _ & _ & _ & _ & _ & E). unfold block_of in E. rewrite zlen_app in E.
  pose proof (zlen_nonneg a) as La0.
  assert (Em : (zlen p + zlen a) mod r = zlen a)
    by (rewrite <- Z.add_mod_idemp_l, Hp, Z.add_0_l by lia; apply Z.mod_small; lia).
  rewrite Em in E. rewrite E. replace (zlen p + zlen a - zlen a) with (zlen p) by lia.
  unfold zslice, zlen. rewrite !Nat2Z.id, skipn_app, skipn_all, Nat.sub_diag. cbn [app skipn]. apply firstn_all.
Qed.
Theorem C59_shake_remains : forall r out n p a,
  r = 168 \/ r = 136 -> zlen out = n -> bytes_ok p -> bytes_ok a -> zlen p mod r = 0 -> zlen a < r ->
  exists f, returns (shake_left r out n (p ++ a) (zlen p + zlen a)) f /\
    rm_out f = Xof r (p ++ a) n /\
    zslice (rm_t f) 0 (n mod r) = zslice (rm_out f) (n - n mod r) (n mod r) /\
    zslice (rm_block f) 0 (zlen a) = a /\
    forall b f', bytestr (zlen a) b -> returns (shake_left r out n (p ++ b) (zlen p + zlen b)) f' ->
      (rm_s f' = rm_s f <-> b = a).
Proof.
  intros r out n p a Hr Ho Bp Ba Hp La.
  assert (W : forall x, bytes_ok x -> wp (shake_left r out n (p ++ x) (zlen p + zlen x)) (left_by r (p ++ x) n)).
  { intros x Bx. rewrite <- zlen_app. apply shake_left_wp; auto. apply inrange_app; auto. }
  pose proof (W a Ba) as Wa. apply wp_returns_ex in Wa. destruct Wa as (f & HR & HF).
  exists f. split; [exact HR|]. pose proof HF as (E1 & _ & E2 & _).
  split; [rewrite Xof_r by exact Hr; exact E1|]. split; [rewrite E1; exact E2|].
  split; [apply (block_end r p a f n); auto; destruct Hr; lia|].
  intros b f' (Lb & Bb) HR'. pose proof (W b Bb) as Wb. apply wp_returns_ex in Wb. destruct Wb as (f2 & HR2 & HF2).
  pose proof (returns_inj _ _ _ HR' HR2) as ->.
  split; [intros E; apply (remains_inj r p b a n f2 f); auto; lia|].
  intros ->; apply (remains_fun r (p ++ a) n); auto.
Qed.
Print Assumptions C59_shake_remains.

(** So the wanted property, that the frames hold no secret when the call returns, is false:
    not even the output is cleared. *)
Theorem C59_cleared_refuted :
  ~ (forall r out n inp f, r = 168 \/ r = 136 -> zlen out = n -> bytes_ok inp ->
     returns (shake_left r out n inp (zlen inp)) f -> rm_t f = zrep r 0 \/ rm_t f = uninit r).
Proof.
  intros H.
  destruct (C59_shake_remains 168 (uninit 16) 16 [] []) as (f & HR & EO & ET & _ & _); auto; try reflexivity; try constructor.
  specialize (H 168 (uninit 16) 16 [] f (or_introl eq_refl) eq_refl ltac:(constructor) HR).
  assert (E : zslice (rm_t f) 0 16 = valof [] (shake128 (uninit 16) 16 [] 0)).
  { change (16 mod 168) with 16 in ET. rewrite ET. unfold shake128. rewrite shake_left_faithful.
    destruct HR as (t & HR). change (zlen [] + zlen []) with 0 in HR. cbn [app] in HR. rewrite HR. cbn [bind ret valof].
    assert (L : zlen (rm_out f) = 16) by (rewrite EO, Xof_r by auto; apply zlen_SHAKE_r; lia).
    unfold zslice. cbn [Z.sub Z.opp Z.add Z.to_nat skipn]. apply firstn_all2. unfold zlen in L; lia. }
  rewrite shake128_empty in E.
  destruct H as [H|H]; rewrite H in E; vm_compute in E; discriminate.
Qed.
Print Assumptions C59_cleared_refuted.

(** ** Encapsulation and decapsulation.  The last block that is hashed for the shared secret
    contains the key k in full: *)
Definition key_in_last_block (P : params) : Prop := ctBytes P mod pRate P + pCB P < pRate P.
Theorem C59_shipped : forall P, P = frodo640 \/ P = frodo976 \/ P = frodo1344 -> key_in_last_block P.
Proof. intros P [-> | [-> | ->]]; reflexivity. Qed.
Print Assumptions C59_shipped.

(** What a call leaves: the first bytes of t are the shared secret SS, the block of keccak_absorb
    contains the key k, and s is what hashing CT with the key k leaves, and hashing it with any
    other key does not. *)
Definition betrays (P : params) (f : remains) (CT k SS : list Z) : Prop :=
  zslice (rm_t f) 0 (pCB P) = SS /\
  zslice (rm_block f) (ctBytes P mod pRate P) (pCB P) = k /\
  forall out k' f', zlen out = pCB P -> bytestr (pCB P) k' ->
    returns (shake_left (pRate P) out (pCB P) (CT ++ k') (ctBytes P + pCB P)) f' ->
    (rm_s f' = rm_s f <-> k' = k).

Lemma block_key r CT k f n c m : 0 < r -> zlen CT = c -> zlen k = m -> c mod r + m < r -> left_by r (CT ++ k) n f ->
  zslice (rm_block f) (c mod r) m = k.
Proof.
  intros Hr Lc Lk Hm (_ & _ & _ & _ & _ & _ & E). unfold block_of in E. rewrite zlen_app, Lc, Lk in E.
  pose proof (zlen_nonneg CT) as C0. pose proof (zlen_nonneg k) as K0.
  pose proof (Z.mod_pos_bound c r Hr) as Hb. pose proof (Z.mod_le c r ltac:(lia) Hr) as Hle.
  assert (Em : (c + m) mod r = c mod r + m)
    by (rewrite <- Z.add_mod_idemp_l by lia; apply Z.mod_small; lia).
  rewrite Em in E. replace (c + m - (c mod r + m)) with (c - c mod r) in E by lia.
  transitivity (zslice (zslice (rm_block f) 0 (c mod r + m)) (c mod r) m).
  { unfold zslice at 2. cbn [Z.to_nat skipn]. unfold zslice. rewrite skipn_firstn_comm, firstn_firstn. f_equal. lia. }
  rewrite E. apply list_ext; [rewrite !zlen_zslice; rewrite ?zlen_zslice; rewrite ?zlen_app; lia|].
  assert (LE : zlen (zslice (CT ++ k) (c - c mod r) (c mod r + m)) = c mod r + m)
    by (apply zlen_zslice; rewrite ?zlen_app; lia).
  rewrite zlen_zslice by lia. intros i Hi. rewrite !znth_zslice by (rewrite ?zlen_app; lia).
  rewrite znth_app2 by lia. f_equal; lia.
Qed.
Lemma betrays_left C f CT k : valid (cP C) -> key_in_last_block (cP C) -> zlen CT = ctBytes (cP C) -> bytes_ok CT ->
  bytestr (pCB (cP C)) k -> left_by (pRate (cP C)) (CT ++ k) (pCB (cP C)) f ->
  betrays (cP C) f CT k (Hash (cP C) (CT ++ k) (pCB (cP C))).
Proof.
  intros V K L B (Lk & Bk) HF. set (P := cP C) in *. pose proof (v_rate P V) as Hr. pose proof (v_CB P V) as HC.
  unfold key_in_last_block in K. assert (Hr0 : 0 < pRate P <= 200) by (destruct Hr; lia).
  pose proof (Z.mod_pos_bound (ctBytes P) (pRate P) ltac:(lia)) as Hm.
  assert (Em : pCB P mod pRate P = pCB P) by (apply Z.mod_small; lia).
  split.
  - pose proof HF as (_ & _ & E & _). rewrite Em in E. rewrite E, Z.sub_diag.
    rewrite (Hash_r C V). fold P. assert (L2 : zlen (SHAKE_r (pRate P) (CT ++ k) (pCB P)) = pCB P) by (apply zlen_SHAKE_r; lia).
    unfold zslice. cbn [Z.to_nat skipn]. apply firstn_all2. unfold zlen in L2; lia.
  - split; [apply (block_key (pRate P) CT k f (pCB P) (ctBytes P) (pCB P)); auto; lia|].
    intros out k' f' Lo (Lk' & Bk') HR.
    pose proof (shake_left_wp (pRate P) out (pCB P) (CT ++ k') Hr Lo (inrange_app _ _ _ B Bk')) as W.
    rewrite zlen_app, L, Lk' in W. apply wp_returns_ex in W. destruct W as (f2 & HR2 & HF2).
    pose proof (returns_inj _ _ _ HR HR2) as ->.
    split; [intros E|intros ->; apply (remains_fun (pRate P) (CT ++ k) (pCB P)); auto].
    set (n := ctBytes P - ctBytes P mod pRate P).
    pose proof (Z.div_mod (ctBytes P) (pRate P) ltac:(lia)) as DM.
    assert (HC0 : 0 <= ctBytes P) by (rewrite <- L; apply zlen_nonneg).
    assert (Hq : 0 <= ctBytes P / pRate P) by (apply Z.div_pos; lia).
    assert (Hn : 0 <= n) by (unfold n; nia).
    assert (ES : CT = zslice CT 0 n ++ zslice CT n (ctBytes P mod pRate P)).
    { rewrite <- (zslice_split CT 0 n) by lia. replace (n + ctBytes P mod pRate P) with (zlen CT) by (unfold n; lia).
      unfold zslice; cbn [Z.to_nat skipn]. symmetry; apply firstn_all2. unfold zlen; lia. }
    rewrite ES, <- app_assoc in HF. rewrite ES, <- app_assoc in HF2.
    assert (L1 : zlen (zslice CT 0 n) = n) by (apply zlen_zslice; lia).
    assert (L2 : zlen (zslice CT n (ctBytes P mod pRate P)) = ctBytes P mod pRate P) by (apply zlen_zslice; lia).
    apply (remains_inj (pRate P) (zslice CT 0 n) (zslice CT n (ctBytes P mod pRate P) ++ k')
             (zslice CT n (ctBytes P mod pRate P) ++ k) (pCB P) f2 f) in E; auto.
    + apply app_inv_head in E. exact E.
    + rewrite L1. unfold n. replace (ctBytes P - ctBytes P mod pRate P) with ((ctBytes P / pRate P) * pRate P) by lia.
      apply Z.mod_mul; lia.
    + rewrite !zlen_app; lia.
    + rewrite zlen_app; lia.
    + apply inrange_app; [apply inrange_zslice; exact B|exact Bk'].
    + apply inrange_app; [apply inrange_zslice; exact B|exact Bk].
Qed.

(** ** Key generation.  Its last call hashes the public key: what that leaves behind is what anyone
    who hashes the public key gets, and says nothing about the secret key. *)
Theorem C59_keypair : forall C rb rc mem pk sk s seedSE z,
  let P := cP C in
  valid P ->
  bytestr (pCB P) s -> bytestr (pCB P) seedSE -> bytestr 16 z ->
  delivers rb (2 * pCB P + 16) (s ++ seedSE ++ z) rc ->
  region mem pk (pkBytes P) -> region mem sk (skBytes P) -> disjoint pk (pkBytes P) sk (skBytes P) ->
  let '(PK, SK) := KeyGen P (cGen C) s seedSE z in
  exists l f buf, returns (crypto_kem_keypair_left C rb mem pk sk) (stored (stored mem pk PK) sk SK, l, 0, f) /\
    zlen buf = pCB P /\ returns (shake_left (pRate P) buf (pCB P) PK (pkBytes P)) f.
Proof.
  intros C rb rc mem pk sk s seedSE z P V (Ls & Bs) (Lse & Bse) (Lz & Bz) Hrb (Hpk & Hpk2) (Hsk & Hsk2) Hd.
  pose proof (keypair_left_wp C V rb rc mem pk sk s seedSE z Ls Lse Lz Bs Bse Bz Hrb Hpk Hpk2 Hsk Hsk2 Hd) as H.
  fold P in H. destruct (KeyGen P (cGen C) s seedSE z) as [PK SK]. apply wp_returns_ex in H.
  destruct H as ([[[m l] r] f] & HR & -> & -> & buf & Lb & HF). exists l, f, buf. auto.
Qed.
Print Assumptions C59_keypair.

(** The last eight entries of the matrix S' stay in sp: once each in the portable build, in all
    sixteen lanes of a vector in the AVX2 build.  The reference build has no such array. *)
Definition samples_stay (im : impl) (N : Z) (S' sp : list Z) : Prop :=
  match im with
  | Reference => sp = []
  | Optimized => zlen sp = 8 /\ forall t, 0 <= t < 8 -> znth sp t = znth S' (8 * N - 8 + t) mod 65536
  | AVX2 => zlen sp = 128 /\ forall t lane, 0 <= t < 8 -> 0 <= lane < 16 ->
              znth sp (16 * t + lane) = znth S' (8 * N - 8 + t) mod 65536
  end.
Lemma samples_stay_of im N S' : 1 <= N -> zlen S' = 8 * N -> samples_stay im N S' (sp_of im N (map w16 S')).
Proof.
  intros HN L. assert (E : forall k, 0 <= k < 8 * N -> znth (map w16 S') k = znth S' k mod 65536).
  { intros k Hk. rewrite znth_map by lia. reflexivity. }
  destruct im; cbn [samples_stay sp_of]; [reflexivity|split; [apply zlen_ztab; lia|]..].
  - intros t Ht. rewrite znth_ztab by lia. apply E; lia.
  - intros t lane Ht Hl. rewrite znth_ztab by lia.
    replace ((16 * t + lane) / 16) with t by (apply Z.div_unique with (r := lane); lia). apply E; lia.
Qed.

Theorem C59_enc : forall C rb rc mem ct ss pk PK mu,
  let P := cP C in
  valid P -> key_in_last_block P -> build_ok C -> bytestr (bytesMu P) mu -> delivers rb (bytesMu P) mu rc ->
  holds mem pk (pkBytes P) PK -> bytes_ok PK ->
  region mem ct (ctBytes P) -> region mem ss (pCB P) -> disjoint ct (ctBytes P) pk (pkBytes P) ->
  let '(CT, SS) := Encaps P (cGen C) PK mu in
  exists l f sp seedSE k, returns (crypto_kem_enc_left C rb mem ct ss pk) (stored (stored mem ct CT) ss SS, l, 0, f, sp) /\
    zlen seedSE = pCB P /\ seedSE ++ k = Hash P (Hash P PK (pCB P) ++ mu) (2 * pCB P) /\
    SS = Hash P (CT ++ k) (pCB P) /\ betrays P f CT k SS /\
    samples_stay (cImpl C) (pN P) (SampleMatrix P (Hash P (150 :: seedSE) (2 * (16 * pN P + 64))) 0 (8 * pN P)) sp.
Proof.
  intros C rb rc mem ct ss pk PK mu P V K Hb (Lmu & Bmu) Hrb ((Hpk & Hpk2) & <-) Bpk (Hct & Hct2) (Hss & Hss2) Hd.
  assert (Hd' : ct + bytesB P <= pk + 16 \/ pk + pkBytes P <= ct).
  { destruct (sizes C V) as (_ & H & _). unfold disjoint, ctBytes in Hd. pose proof (bytesC_eq P). fold P in H. lia. }
  pose proof (enc_left_wp C V rb rc mem ct ss pk mu Hb Lmu Bmu Hrb Hpk Hpk2 Bpk Hct Hct2 Hss Hss2 Hd') as H.
  fold P in H. pose proof (v_CB P V) as HC.
  set (PK := zslice mem pk (pkBytes P)) in *.
  set (k := skipn (Z.to_nat (pCB P)) (Hash P (Hash P PK (pCB P) ++ mu) (2 * pCB P))) in *.
  assert (Hk : bytestr (pCB P) k).
  { pose proof (zlen_Hash C V (Hash P PK (pCB P) ++ mu) (2 * pCB P) ltac:(lia)) as L. fold P in L.
    split; [unfold k, zlen in *; rewrite skipn_length; lia|]. apply inrange_skipn, (Hash_ok C V). }
  pose proof (Encaps_shape P (cGen C) V PK mu) as HS.
  assert (HK : snd (Encaps P (cGen C) PK mu) = Hash P (fst (Encaps P (cGen C) PK mu) ++ k) (pCB P)).
  { unfold Encaps, Encrypt, k. reflexivity. }
  destruct (Encaps P (cGen C) PK mu) as [CT SS]. cbn [fst snd] in HK.
  apply wp_returns_ex in H. destruct H as ([[[[m l] r] f] sp] & HR & -> & -> & -> & HF).
  exists l, f, (sp_of (cImpl C) (pN P) (map w16 (Sprime P (Hash P PK (pCB P)) mu))),
    (firstn (Z.to_nat (pCB P)) (Hash P (Hash P PK (pCB P) ++ mu) (2 * pCB P))), k.
  split; [exact HR|]. split.
  { pose proof (zlen_Hash C V (Hash P PK (pCB P) ++ mu) (2 * pCB P) ltac:(lia)) as L. fold P in L.
    unfold zlen in *; rewrite firstn_length; lia. }
  split; [apply firstn_skipn|]. split; [exact HK|]. split.
  { rewrite HK. apply betrays_left; auto; apply HS. }
  pose proof (v_N P V). apply samples_stay_of; [lia|apply zlen_ztab; lia].
Qed.
Print Assumptions C59_enc.

Lemma dec_key_shape C SK CT : valid (cP C) -> zlen SK = skBytes (cP C) -> bytes_ok SK ->
  bytestr (pCB (cP C)) (dec_key (cP C) (cGen C) SK CT).
Proof.
  intros V L B. set (P := cP C) in *. pose proof (v_CB P V) as HC. unfold dec_key.
  pose proof (Encrypt_shape P (cGen C) V (sk_seedA P SK) (sk_b P SK) (sk_pkh P SK) (Decrypt P SK CT)) as H.
  destruct (Encrypt _ _ _ _ _ _) as [[B2 C2] k]. destruct H as (_ & _ & _ & _ & ->).
  destruct (list_eq_dec _ _ _).
  - pose proof (zlen_Hash C V (sk_pkh P SK ++ Decrypt P SK CT) (2 * pCB P) ltac:(lia)) as LH. fold P in LH.
    split; [unfold zlen in *; rewrite skipn_length; lia|]. apply inrange_skipn, (Hash_ok C V).
  - unfold sk_s. change (part ?l ?o ?n) with (zslice l o n).
    split; [|apply inrange_zslice; exact B]. apply zlen_zslice; [lia|lia|].
    destruct (sizes C V) as (S1 & S2 & _ & S4 & S5 & S3 & S6 & _ & _ & S7 & S8 & _).
    fold P in S1, S2, S3, S4, S5, S6, S7, S8. lia.
Qed.
Theorem C59_dec : forall C mem ss ct sk CT SK,
  let P := cP C in
  valid P -> key_in_last_block P -> build_ok C ->
  holds mem sk (skBytes P) SK -> bytes_ok SK -> sk mod 2 = 0 ->
  holds mem ct (ctBytes P) CT -> bytes_ok CT -> region mem ss (pCB P) ->
  let mu' := Decrypt P SK CT in
  let SS := Decaps P (cGen C) SK CT in
  exists l f sp k, returns (crypto_kem_dec_left C mem ss ct sk) (stored mem ss SS, l, 0, f, sp) /\
    SS = Hash P (CT ++ k) (pCB P) /\ betrays P f CT k SS /\
    (CT = reencrypt P (cGen C) SK mu' -> k = key_of P SK mu') /\
    (CT <> reencrypt P (cGen C) SK mu' -> k = sk_s P SK) /\
    exists seedSE, zlen seedSE = pCB P /\ seedSE ++ key_of P SK mu' = Hash P (sk_pkh P SK ++ mu') (2 * pCB P) /\
      samples_stay (cImpl C) (pN P) (SampleMatrix P (Hash P (150 :: seedSE) (2 * (16 * pN P + 64))) 0 (8 * pN P)) sp.
Proof.
  intros C mem ss ct sk CT SK P V K Hb ((Hsk & Hsk2) & <-) Bsk Hal ((Hct & Hct2) & <-) Bct (Hss & Hss2).
  pose proof (dec_left_wp C V mem ss ct sk Hb Hsk Hsk2 Bsk Hal Hct Hct2 Bct Hss Hss2) as H.
  cbv zeta in H. fold P in H. cbv zeta.
  assert (LCT : zlen (zslice mem ct (ctBytes P)) = ctBytes P).
  { apply zlen_zslice; [exact Hct| |exact Hct2]. destruct (sizes C V) as (S1 & S2 & _ & _ & _ & S3 & _).
    unfold ctBytes. pose proof (bytesC_eq P). fold P in S1, S2, S3. nia. }
  assert (LSK : zlen (zslice mem sk (skBytes P)) = skBytes P).
  { apply zlen_zslice; [exact Hsk| |exact Hsk2]. destruct (sizes C V) as (S1 & S2 & _ & S4 & S5 & S3 & S6 & _ & _ & S7 & S8 & _).
    fold P in S1, S2, S3, S4, S5, S6, S7, S8. nia. }
  set (CT := zslice mem ct (ctBytes P)) in *. set (SK := zslice mem sk (skBytes P)) in *.
  assert (Hk : bytestr (pCB P) (dec_key P (cGen C) SK CT)) by (apply dec_key_shape; auto).
  apply wp_returns_ex in H. destruct H as ([[[[m l] r] f] sp] & HR & -> & -> & -> & HF).
  assert (HK : Decaps P (cGen C) SK CT = Hash P (CT ++ dec_key P (cGen C) SK CT) (pCB P)).
  { unfold Decaps, dec_key. destruct (Encrypt _ _ _ _ _ _) as [[B2 C2] k]. reflexivity. }
  exists l, f, (sp_of (cImpl C) (pN P) (map w16 (Sprime P (sk_pkh P SK) (Decrypt P SK CT)))), (dec_key P (cGen C) SK CT).
  split; [exact HR|]. split; [exact HK|].
  split; [rewrite HK; apply betrays_left; auto|].
  pose proof (accepted_matrices P (cGen C) V SK CT LCT Bct) as HA. unfold accepted in HA.
  unfold dec_key, key_of. unfold Encrypt in *. cbv zeta in *.
  split; [|split].
  3:{ exists (firstn (Z.to_nat (pCB P)) (Hash P (sk_pkh P SK ++ Decrypt P SK CT) (2 * pCB P))).
      pose proof (v_CB P V) as HC. pose proof (v_N P V). split.
      { pose proof (zlen_Hash C V (sk_pkh P SK ++ Decrypt P SK CT) (2 * pCB P) ltac:(lia)) as L. fold P in L.
        unfold zlen in *; rewrite firstn_length; lia. }
      split; [apply firstn_skipn|]. apply samples_stay_of; [lia|apply zlen_ztab; lia]. }
  all: destruct (list_eq_dec _ _ _) as [E|E]; intros E'; try reflexivity; exfalso; tauto.
Qed.
Print Assumptions C59_dec.

(** The hypotheses are met by FrodoKEM-976 and the memories of C05. *)
Example C59_hyps :
  valid (cP C976) /\ key_in_last_block (cP C976) /\ build_ok C976 /\
  holds mem976 50000 (skBytes frodo976) (zslice mem976 50000 31296) /\ region mem976 0 24.
Proof.
  pose proof C05_enc_dec_hyps as H. split; [exact valid_976|]. split; [reflexivity|]. tauto.
Qed.
Example C59_shake_hyps :
  let p := zrep 168 1 in let a := [2; 3] in
  bytes_ok p /\ bytes_ok a /\ zlen p mod 168 = 0 /\ zlen a < 168 /\ bytestr (zlen a) [2; 4].
Proof. cbv zeta. repeat split; try (apply inrange_zrep; lia); repeat constructor; lia. Qed.
