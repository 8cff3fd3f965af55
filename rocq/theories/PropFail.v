(** Property C36: how rare decryption failures are. *)
From Verif Require Import CSem Params Util UtilSpec UtilProofs KeccakSpec AesSpec MatrixSpec Macrify
  MatrixProofs MatrixProofs2 EncodeProofs PropUtil PropMatrix FrodoSpec Kem KemProofs KemWp FrodoFacts PropKem.
From Verif Require Import FailSpec Tail TailNum.
Local Opaque wsum.

Section Pke.
Variables (P : params) (g : genA) (V : valid P).
Let n := pN P.
Let s := sample_spec (pCDF P).
Lemma pke_fails_iff seedA mu r r' : zlen mu = bytesMu P -> bytes_ok mu ->
  (pke_fails P g seedA mu (r, r') = false <-> forall t, 0 <= t < 64 -> tolerated (pD P) (pB P) (entry s n r r' t)).
Proof.
  intros Lmu Bmu. destruct (F_sizes P g V) as (HN & HD & HB & HCB & HDN & ENN & EbB & EbC & EbMu & _). fold n in HN.
  unfold pke_fails, pke_keygen, pke_dec, pke_enc. cbn [fst snd]. fold n.
  set (pl := sub_spec _ _ _).
  assert (HX : forall t, 0 <= t < 64 -> znth pl t mod 2 ^ pD P = (znth (encode_spec (pD P) (pB P) mu) t + entry s n r r' t) mod 2 ^ pD P).
  { intros t Ht. unfold pl. rewrite decrypt_algebra; [|apply (F_q P g V)|lia|lia]. do 2 f_equal. unfold entry, SampleMatrix.
    assert (Hi : 0 <= t / 8 < 8) by (split; [apply Z.div_pos; lia|apply Z.div_lt_upper_bound; lia]).
    assert (Hk : 0 <= t mod 8 < 8) by (apply Z.mod_pos_bound; lia).
    assert (X : forall a j, 0 <= a < 8 -> 0 <= j < n -> 0 <= a * n + j < 8 * n).
    { intros a j Ha Hj. assert (0 <= a * n) by (apply Z.mul_nonneg_nonneg; lia).
      assert ((a + 1) * n <= 8 * n) by (apply Z.mul_le_mono_nonneg_r; lia). rewrite Z.mul_add_distr_r in *. lia. }
    f_equal; [f_equal; [|now rewrite znth_ztab by lia]|]; apply zsum_ext; intros j Hj;
      rewrite !znth_ztab by first [lia | apply X; lia]; reflexivity. }
  assert (Lpl : zlen pl = 64) by reflexivity.
  assert (Upl : u16s_ok pl) .
  { apply inrange_mono with (2 ^ pD P); [apply (pow2_le_16 (pD P)); lia|apply (ztab_mod_range P g V)]. }
  destruct (C13_decode_exact P (uninit (8 * pB P)) mu pl (entry s n r r')) as (m & Hm & Hiff); auto; [apply zlen_uninit; lia|lia|].
  assert (Em : m = decode_spec (pD P) (pB P) pl) by (eapply returns_inj; [exact Hm|apply C19_key_decode; auto; apply zlen_uninit; lia]).
  rewrite <- Hiff, Em. destruct (list_eq_dec Z.eq_dec _ _) as [e|e]; (split; [intros H|intros H]); try reflexivity; try discriminate; [exact e|now elim e].
Qed.
End Pke.

(** The largest 2^-k that is proved for each parameter set, in the count of pairs of strings. *)
Definition failure_bits (P : params) : Z := if pN P =? 640 then 133 else if pN P =? 976 then 194 else 246.
Lemma hits_eq c v : hits c v = zsum 65536 (fun w => Z.b2z (sample_spec c w =? v)).
Proof. reflexivity. Qed.
Lemma few_failures P g seedA mu c d tm chi h gg n2 T k :
  valid P -> zlen mu = bytesMu P -> bytes_ok mu -> 0 < d -> d <= c -> tm = zlen (pCDF P) - 1 -> Zpos n2 = 2 * pN P ->
  (forall v, hits (pCDF P) v = znth chi (Z.abs v)) -> (forall v, 0 <= znth chi v) -> 0 <= h -> 0 <= gg -> 0 <= k ->
  Zpos T = 2 ^ (pD P - pB P - 1) -> Zpos T <= big tm (pN P) -> check c d tm chi h gg n2 T k = true ->
  count (pke_fails P g seedA mu) (list_prod (bytestrings (Z.to_nat (32 * pN P))) (bytestrings (Z.to_nat (32 * pN P + 128)))) * 2 ^ k
    <= 256 ^ (64 * pN P + 128).
Proof.
  intros V Lmu Bmu Hd Hc Etm En2 Hchi Pchi Hh Hg Hk ET HT HC. pose proof (v_N P V). pose proof (v_cdf_len P V).
  assert (EQ : 256 ^ (64 * pN P + 128) = 65536 ^ (32 * pN P + 64)).
  { transitivity ((256 ^ 2) ^ (32 * pN P + 64)); [|reflexivity]. rewrite <- Z.pow_mul_r by lia. f_equal; lia. }
  rewrite EQ. clear EQ.
  assert (Hsm : forall w, Z.abs (sample_spec (pCDF P) w) <= tm).
  { intros w. pose proof (sample_mag_bound (pCDF P) w ltac:(lia)). unfold sample_spec. destruct (Z.even w); lia. }
  assert (Htm : 0 <= tm) by lia.
  assert (Hn : 0 < pN P) by lia.
  assert (K := union_bound c d tm (pN P) (sample_spec (pCDF P)) chi h gg n2 T k Hd Hc Htm Hsm Hn En2).
  assert (Hchi' : forall v, zsum 65536 (fun w => Z.b2z (sample_spec (pCDF P) w =? v)) = znth chi (Z.abs v)) by (intros v; rewrite <- hits_eq; apply Hchi).
  specialize (K Hchi').
  specialize (K Pchi Hh Hg Hk).
  specialize (K HT).
  specialize (K HC).
  unfold strs in K. replace (2 * (16 * pN P)) with (32 * pN P) in K by lia. replace (2 * (16 * pN P + 64)) with (32 * pN P + 128) in K by lia.
  apply K; clear K. intros r r' Hf.
    destruct (existsb (fun t => (Zpos T <=? entry (sample_spec (pCDF P)) (pN P) r r' t) || (entry (sample_spec (pCDF P)) (pN P) r r' t <=? - Zpos T)) (zseq 64)) eqn:EX.
    + apply existsb_exists in EX. destruct EX as (t & Ht & EX). apply in_zseq in Ht. exists t. split; [exact Ht|].
      apply orb_true_iff in EX. rewrite !Z.leb_le in EX. exact EX.
    + exfalso. assert (F : pke_fails P g seedA mu (r, r') = false); [|congruence].
      apply (pke_fails_iff P g V); auto. intros t Ht. exists 0. rewrite Z.mul_0_l, Z.add_0_r, <- ET.
      assert (E : (Zpos T <=? entry (sample_spec (pCDF P)) (pN P) r r' t) || (entry (sample_spec (pCDF P)) (pN P) r r' t <=? - Zpos T) = false).
      { destruct (_ || _) eqn:E; [|reflexivity]. exfalso. assert (existsb (fun t => (Zpos T <=? entry (sample_spec (pCDF P)) (pN P) r r' t) || (entry (sample_spec (pCDF P)) (pN P) r r' t <=? - Zpos T)) (zseq 64) = true); [|congruence].
        apply existsb_exists. exists t. split; [now apply in_zseq|exact E]. }
      apply orb_false_iff in E. rewrite !Z.leb_gt in E. lia.
Qed.
Lemma znth_nonneg l : Forall (fun x => 0 <= x) l -> forall v, 0 <= znth l v.
Proof.
  intros H v. destruct (Z.lt_ge_cases v 0); [rewrite znth_neg by lia; lia|]. destruct (Z.lt_ge_cases v (zlen l)); [|rewrite znth_out by lia; lia].
  unfold znth. destruct (v <? 0); [lia|]. rewrite Forall_forall in H. apply H. apply nth_In. unfold zlen in *; lia.
Qed.

(** Fix the matrix seed and the message.  Among all pairs (r, r') of byte strings that may feed
    the sampler in key generation (32n bytes) and in encryption (32n + 128 bytes), at most one in
    2^133, 2^194, 2^246 makes decryption return something other than the message. *)
Theorem C36_failure_rate : forall P, P = frodo640 \/ P = frodo976 \/ P = frodo1344 ->
  forall g seedA mu, zlen mu = bytesMu P -> bytes_ok mu ->
  count (pke_fails P g seedA mu)
        (list_prod (bytestrings (Z.to_nat (32 * pN P))) (bytestrings (Z.to_nat (32 * pN P + 128)))) * 2 ^ failure_bits P
    <= 256 ^ (64 * pN P + 128).
Proof.
  destruct C14_distribution as (H1 & H2 & H3).
  intros P [-> | [-> | ->]] g seedA mu Lmu Bmu.
  - apply (few_failures frodo640 g seedA mu 23 22 12 chi640 1231782731748892036 1161980224115246661 1280 4096 133); auto;
      try reflexivity; try apply valid_640; try lia; try (vm_compute; discriminate).
    apply znth_nonneg; repeat constructor; lia.
  - apply (few_failures frodo976 g seedA mu 16 15 10 chi976 1229144781986035182 1165892961445757298 1952 4096 194); auto;
      try reflexivity; try apply valid_976; try lia; try (vm_compute; discriminate).
    apply znth_nonneg; repeat constructor; lia.
  - apply (few_failures frodo1344 g seedA mu 20 17 6 chi1344 1222175814428341684 1184441277769761702 2688 2048 246); auto;
      try reflexivity; try apply valid_1344; try lia; try (vm_compute; discriminate).
    apply znth_nonneg; repeat constructor; lia.
Qed.
Print Assumptions C36_failure_rate.

(** The list counted over has every pair of byte strings of the two lengths exactly once, and
    256^(64n+128) elements: the theorem above bounds a fraction. *)
Lemma bytestrings_all m l : In l (bytestrings m) <-> zlen l = Z.of_nat m /\ bytes_ok l.
Proof.
  revert l. induction m as [|m IH]; intros l; cbn [bytestrings].
  - split; [intros [<- | []]; split; [reflexivity|constructor]|]. intros (H & _). left. destruct l; [reflexivity|rewrite zlen_cons in H; pose proof (zlen_nonneg l); lia].
  - rewrite in_flat_map. split.
    + intros (b & Hb & Hl). apply in_zseq in Hb. apply in_map_iff in Hl. destruct Hl as (l' & <- & Hl'). apply IH in Hl'. destruct Hl' as (L & B).
      split; [rewrite zlen_cons; lia|]. constructor; [lia|exact B].
    + intros (L & B). destruct l as [|b l]; [cbn in L; lia|]. rewrite zlen_cons in L. inversion B as [|? ? Hb Hl E]. subst.
      exists b. split; [apply in_zseq; lia|]. apply in_map. apply IH. split; [lia|exact Hl].
Qed.
Lemma nodup_fibres {A B C} (f : A -> B -> C) (L : list B) : (forall a b a' b', f a b = f a' b' -> a = a' /\ b = b') -> NoDup L ->
  forall l, NoDup l -> NoDup (flat_map (fun a => map (f a) L) l).
Proof.
  intros Hf HL l. induction 1 as [|a l Ha Hl IH]; [constructor|]. cbn [flat_map]. apply nodup_app; [|exact IH|].
  - apply FinFun.Injective_map_NoDup; [|exact HL]. intros x y E. now apply Hf in E.
  - intros x Hx Hx'. apply in_map_iff in Hx. destruct Hx as (b & <- & _). apply in_flat_map in Hx'. destruct Hx' as (a' & Ha' & Hx').
    apply in_map_iff in Hx'. destruct Hx' as (b' & E & _). apply Hf in E. destruct E as (-> & _). contradiction.
Qed.
Lemma zlen_fibres {A B C} (f : A -> B -> C) (L : list B) l : zlen (flat_map (fun a => map (f a) L) l) = zlen l * zlen L.
Proof. induction l as [|a l IH]; [reflexivity|]. cbn [flat_map]. rewrite zlen_app, zlen_map, zlen_cons, IH. ring. Qed.
Lemma bytestrings_nodup m : NoDup (bytestrings m).
Proof.
  induction m as [|m IH]; cbn [bytestrings]; [repeat constructor; intros []|]. apply nodup_fibres; [|exact IH|apply nodup_zseq].
  intros a b a' b' E. inversion E. auto.
Qed.
Lemma zlen_bytestrings m : zlen (bytestrings m) = 256 ^ Z.of_nat m.
Proof.
  induction m as [|m IH]; [reflexivity|]. cbn [bytestrings]. rewrite zlen_fibres, IH, zlen_zseq by lia.
  replace (Z.of_nat (Datatypes.S m)) with (1 + Z.of_nat m) by lia. rewrite Z.pow_add_r, Z.pow_1_r by lia. reflexivity.
Qed.
Lemma list_prod_fibres {A B} (l : list A) (L : list B) : list_prod l L = flat_map (fun a => map (pair a) L) l.
Proof. induction l as [|a l IH]; [reflexivity|]. cbn [list_prod flat_map]. now rewrite IH. Qed.
Theorem C36_all_pairs : forall n, 0 <= n ->
  let pairs := list_prod (bytestrings (Z.to_nat (32 * n))) (bytestrings (Z.to_nat (32 * n + 128))) in
  (forall r r', In (r, r') pairs <-> (zlen r = 32 * n /\ bytes_ok r) /\ (zlen r' = 32 * n + 128 /\ bytes_ok r')) /\
  NoDup pairs /\ zlen pairs = 256 ^ (64 * n + 128).
Proof.
  intros n Hn pairs. unfold pairs. split; [|split].
  - intros r r'. rewrite in_prod_iff, !bytestrings_all, !Z2Nat.id by lia. reflexivity.
  - rewrite list_prod_fibres. apply nodup_fibres; [|apply bytestrings_nodup|apply bytestrings_nodup]. intros a b a' b' E. inversion E; auto.
  - rewrite list_prod_fibres, zlen_fibres, !zlen_bytestrings, !Z2Nat.id, <- Z.pow_add_r by lia. f_equal. lia.
Qed.
Print Assumptions C36_all_pairs.

(** The pairs that fail do exist: all bytes of r and the first half of r' at their largest. *)
Definition top_word (i : Z) : Z := if Z.even i then 254 else 255.
Definition top_r (P : params) : list Z := ztab (32 * pN P) top_word.
Definition top_r' (P : params) : list Z := ztab (32 * pN P + 128) (fun i => if i <? 16 * pN P then top_word i else 0).
Lemma word16_top m k : 0 <= k -> 2 * k + 1 < m -> word16 (ztab m top_word) k = 65534.
Proof.
  intros. unfold word16. rewrite !znth_ztab by lia. unfold top_word.
  rewrite !Z.even_add, !Z.even_mul. reflexivity.
Qed.
Lemma word16_top' P k : 0 <= k -> k < 16 * pN P + 64 ->
  word16 (top_r' P) k = if k <? 8 * pN P then 65534 else 0.
Proof.
  intros. unfold word16, top_r'. rewrite !znth_ztab by lia.
  destruct (Z.ltb_spec k (8 * pN P)); destruct (Z.ltb_spec (2 * k) (16 * pN P)); destruct (Z.ltb_spec (2 * k + 1) (16 * pN P)); try lia.
  unfold top_word. rewrite !Z.even_add, !Z.even_mul. reflexivity.
Qed.
Lemma zsum_const n c : 0 <= n -> zsum n (fun _ => c) = n * c.
Proof.
  intros H. rewrite <- lsum_zseq. transitivity (zlen (zseq n) * c); [|now rewrite zlen_zseq by lia].
  induction (zseq n) as [|a l IH]; [reflexivity|]. rewrite zlen_cons. cbn [lsum fold_right]. fold (lsum (fun _ : Z => c) l). rewrite IH. ring.
Qed.
Lemma entry_top P : valid P -> entry (sample_spec (pCDF P)) (pN P) (top_r P) (top_r' P) 0 =
  pN P * (sample_spec (pCDF P) 65534 * sample_spec (pCDF P) 65534) + sample_spec (pCDF P) 0 -
  pN P * (sample_spec (pCDF P) 0 * sample_spec (pCDF P) 65534).
Proof.
  intros V. pose proof (v_N P V). unfold entry. change (0 / 8) with 0. change (0 mod 8) with 0. f_equal; [f_equal|].
  - rewrite (zsum_ext _ _ (fun _ => sample_spec (pCDF P) 65534 * sample_spec (pCDF P) 65534)); [apply zsum_const; lia|].
    intros j Hj. rewrite word16_top' by lia. unfold top_r. rewrite word16_top by lia. destruct (Z.ltb_spec (0 * pN P + j) (8 * pN P)); [reflexivity|lia].
  - rewrite word16_top' by lia. destruct (Z.ltb_spec (16 * pN P + 0) (8 * pN P)); [lia|reflexivity].
  - rewrite (zsum_ext _ _ (fun _ => sample_spec (pCDF P) 0 * sample_spec (pCDF P) 65534)); [apply zsum_const; lia|].
    intros j Hj. rewrite word16_top' by lia. unfold top_r. rewrite word16_top by lia. destruct (Z.ltb_spec (8 * pN P + (0 * pN P + j)) (8 * pN P)); [lia|reflexivity].
Qed.
Lemma C36_failures_exist : forall P, P = frodo640 \/ P = frodo976 \/ P = frodo1344 ->
  forall g seedA mu, zlen mu = bytesMu P -> bytes_ok mu -> pke_fails P g seedA mu (top_r P, top_r' P) = true.
Proof.
  intros P HP g seedA mu Lmu Bmu. assert (V : valid P) by (destruct HP as [-> | [-> | ->]]; [apply valid_640|apply valid_976|apply valid_1344]).
  destruct (pke_fails P g seedA mu (top_r P, top_r' P)) eqn:E; [reflexivity|]. exfalso.
  pose proof (proj1 (pke_fails_iff P g V seedA mu (top_r P) (top_r' P) Lmu Bmu) E) as E'. clear E; rename E' into E. specialize (E 0 ltac:(lia)). rewrite (entry_top P V) in E. destruct E as (m & E).
  destruct HP as [-> | [-> | ->]]; cbn [pD pB pN frodo640 frodo976 frodo1344] in E; vm_compute (sample_spec _ _) in E;
    change (2 ^ (15 - 2 - 1)) with 4096 in E; change (2 ^ (16 - 3 - 1)) with 4096 in E; change (2 ^ (16 - 4 - 1)) with 2048 in E;
    change (2 ^ 15) with 32768 in E; change (2 ^ 16) with 65536 in E; lia.
Qed.

(** The pair of strings an exchange through the API uses, and what its being good or bad means
    for the two shared secrets.  Everything is in the setting of C01: key generation,
    encapsulation and decapsulation in three processes. *)
Definition exchange_strings (P : params) (PK seedSE mu : list Z) : list Z * list Z :=
  (Hash P (95 :: seedSE) (32 * pN P),
   Hash P (150 :: firstn (Z.to_nat (pCB P)) (Hash P (Hash P PK (pCB P) ++ mu) (2 * pCB P))) (32 * pN P + 128)).
Theorem C36_api : forall C1 C2 C3 rb1 rb2 rc1 rc2 mem1 mem2 mem3 pk1 sk1 pk2 ct2 ss2 sk3 ct3 ss3 s seedSE z mu mem1' mem2',
  C01_setting C1 C2 C3 rb1 rb2 rc1 rc2 mem1 mem2 mem3 pk1 sk1 pk2 ct2 ss2 sk3 ct3 ss3 s seedSE z mu mem1' mem2' ->
  let P := cP C1 in
  let PK := zslice mem1' pk1 (pkBytes P) in
  let SK := zslice mem1' sk1 (skBytes P) in
  let CT := zslice mem2' ct2 (ctBytes P) in
  let fails := pke_fails P (cGen C1) (Hash P z 16) mu (exchange_strings P PK seedSE mu) in
  (fails = false -> exists l, returns (crypto_kem_dec C3 mem3 ss3 ct3 sk3)
                                      (stored mem3 ss3 (zslice mem2' ss2 (pCB P)), l, 0)) /\
  (fails = true -> Decrypt P SK CT <> mu).
Proof.
  intros until mem2'. intros HS P PK SK CT fails. pose proof (C01_agreement _ _ _ _ _ _ _ _ _ _ _ _ _ _ _ _ _ _ _ _ _ _ _ _ HS) as K.
  cbv zeta in K. fold P in K. fold PK in K. fold SK in K. fold CT in K. destruct K as (K1 & K2).
  assert (V : valid P) by apply HS. assert (Bmu : bytestr (bytesMu P) mu) by apply HS. pose proof (v_N P V) as HN.
  pose proof (pke_fails_iff P (cGen C1) V (Hash P z 16) mu (fst (exchange_strings P PK seedSE mu)) (snd (exchange_strings P PK seedSE mu)) (proj1 Bmu) (proj2 Bmu)) as HI.
  rewrite <- surjective_pairing in HI. fold fails in HI.
  assert (EN : forall t, 0 <= t < 64 -> entry (sample_spec (pCDF P)) (pN P) (fst (exchange_strings P PK seedSE mu)) (snd (exchange_strings P PK seedSE mu)) t =
    noise P seedSE (Hash P PK (pCB P)) mu t).
  { intros t Ht. unfold noise, exchange_strings, entry, SampleMatrix. cbv zeta. cbn [fst snd].
    replace (32 * pN P + 128) with (2 * (16 * pN P + 64)) by lia. replace (32 * pN P) with (2 * (16 * pN P)) by lia.
    assert (Hi : 0 <= t / 8 < 8) by (split; [apply Z.div_pos; lia|apply Z.div_lt_upper_bound; lia]).
    assert (Hk : 0 <= t mod 8 < 8) by (apply Z.mod_pos_bound; lia).
    assert (X : forall a j, 0 <= a < 8 -> 0 <= j < pN P -> 0 <= a * pN P + j < 8 * pN P).
    { intros a j Ha Hj. assert (0 <= a * pN P) by (apply Z.mul_nonneg_nonneg; lia).
      assert ((a + 1) * pN P <= 8 * pN P) by (apply Z.mul_le_mono_nonneg_r; lia). rewrite Z.mul_add_distr_r in *. lia. }
    f_equal; [f_equal; [|now rewrite znth_ztab by lia]|]; apply zsum_ext; intros j Hj;
      rewrite !znth_ztab by first [lia | apply X; lia]; reflexivity. }
  split.
  - intros Hf. apply K1. intros t Ht. rewrite <- EN by exact Ht. now apply HI.
  - intros Hf. apply K2. intros Hok. assert (fails = false); [|congruence]. apply HI. intros t Ht. rewrite EN by exact Ht. now apply Hok.
Qed.
Print Assumptions C36_api.
