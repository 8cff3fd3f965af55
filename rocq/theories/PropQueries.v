(** Property C60: domain separation.  keypair, enc and dec use one hash function for several purposes;
    the theorems say exactly what each call hashes, and that one string is never hashed for two purposes. *)
From Verif Require Import CSem Params Util UtilSpec UtilProofs Fips202 KeccakSpec ShakeProofs AesSpec
  MatrixSpec Macrify MatrixProofs MatrixProofs2 EncodeProofs PropMatrix FrodoSpec Kem KemProofs KemWp FrodoFacts PropKem
  KeccakInj Residue ResidueProofs PropResidue RowQueries RowQueriesProofs Queries QueriesProofs.

(** ** The models with the record compute what the models of the other properties do:
    same result, same trace, same errors. *)
Ltac same := repeat first
  [ rewrite bind_ret_l; reflexivity
  | reflexivity
  | rewrite as_plus_e_same, !bind_bind; apply bind_cong; intros (? & ?); rewrite bind_ret_l
  | rewrite sa_plus_e_same, !bind_bind; apply bind_cong; intros ((? & ?) & ?); rewrite bind_ret_l
  | rewrite bind_bind; apply bind_cong; intros ?
  | match goal with |- match ?x with _ => _ end = _ => destruct x end ].
Theorem C60_as_same : forall C out s e seedA,
  as_plus_e C out s e seedA = bind (as_plus_e_asks C out s e seedA) (fun '(o, _) => ret o).
Proof. exact as_plus_e_same. Qed.
Print Assumptions C60_as_same.
Theorem C60_sa_same : forall C ebase out s e seedA,
  sa_plus_e C ebase out s e seedA = bind (sa_plus_e_asks C ebase out s e seedA) (fun '(o, e', _) => ret (o, e')).
Proof. exact sa_plus_e_same. Qed.
Print Assumptions C60_sa_same.
Theorem C60_keypair_same : forall C rb mem pk sk,
  crypto_kem_keypair C rb mem pk sk =
  bind (crypto_kem_keypair_asks C rb mem pk sk) (fun '(mem', l, r, _) => ret (mem', l, r)).
Proof. intros. unfold crypto_kem_keypair, crypto_kem_keypair_asks; cbv zeta. same. Qed.
Print Assumptions C60_keypair_same.
Theorem C60_enc_same : forall C rb mem ct ss pk,
  crypto_kem_enc C rb mem ct ss pk =
  bind (crypto_kem_enc_asks C rb mem ct ss pk) (fun '(mem', l, r, _) => ret (mem', l, r)).
Proof. intros. unfold crypto_kem_enc, crypto_kem_enc_asks; cbv zeta. same. Qed.
Print Assumptions C60_enc_same.
Theorem C60_dec_same : forall C mem ss ct sk,
  crypto_kem_dec C mem ss ct sk =
  bind (crypto_kem_dec_asks C mem ss ct sk) (fun '(mem', l, r, _) => ret (mem', l, r)).
Proof. intros. unfold crypto_kem_dec, crypto_kem_dec_asks; cbv zeta. same. Qed.
Print Assumptions C60_dec_same.

(** ** What is hashed.  A call in a line of src/kem.c that hashes x to n bytes: *)
Definition call (P : params) (line : Z) (x : list Z) (n : Z) : query :=
  {| q_line := line; q_rate := pRate P; q_in := x; q_out := n |}.
(** ... and the rows of A: 2N bytes of SHAKE128 of the row number and the seed. *)
Definition row_calls (g : genA) (N : Z) (seedA : list Z) : list query :=
  match g with
  | GenAES => []
  | GenSHAKE => map (fun i => {| q_line := 0; q_rate := 168; q_in := [i mod 256; (i / 256) mod 256] ++ seedA; q_out := 2 * N |})
                  (map Z.of_nat (seq 0 (Z.to_nat N)))
  end.

Lemma ask_call P line x m n : zlen x = m -> ask P line x m n = call P line x n.
Proof.
  intros <-. unfold ask, call. f_equal. unfold zslice. cbn [Z.to_nat skipn]. apply firstn_all2. unfold zlen; lia.
Qed.
Lemma rows_calls C seedA : rows C seedA = row_calls (cGen C) (pN (cP C)) seedA.
Proof.
  unfold rows, rows_for, row_list, row_calls. destruct (cGen C); [reflexivity|]. rewrite Z.sub_0_r. reflexivity.
Qed.

Theorem C60_keypair : forall C rb rc mem pk sk s seedSE z,
  let P := cP C in
  valid P -> bytestr (pCB P) s -> bytestr (pCB P) seedSE -> bytestr 16 z ->
  delivers rb (2 * pCB P + 16) (s ++ seedSE ++ z) rc ->
  region mem pk (pkBytes P) -> region mem sk (skBytes P) -> disjoint pk (pkBytes P) sk (skBytes P) ->
  let '(PK, SK) := KeyGen P (cGen C) s seedSE z in
  exists l, returns (crypto_kem_keypair_asks C rb mem pk sk) (stored (stored mem pk PK) sk SK, l, 0,
    [call P 39 z 16; call P 44 (0x5F :: seedSE) (32 * pN P)] ++
    row_calls (cGen C) (pN P) (Hash P z 16) ++ [call P 64 PK (pCB P)]).
Proof.
  intros C rb rc mem pk sk s seedSE z P V (Ls & Bs) (Lse & Bse) (Lz & Bz) Hrb (Hpk & Hpk2) (Hsk & Hsk2) Hd.
  pose proof (keypair_asks_wp C V rb rc mem pk sk s seedSE z Ls Lse Lz Bs Bse Bz Hrb Hpk Hpk2 Hsk Hsk2 Hd) as H.
  pose proof (KeyGen_parts P (cGen C) V s seedSE z Ls) as K.
  fold P in H. destruct (KeyGen P (cGen C) s seedSE z) as [PK SK]. cbn [fst snd] in H. destruct K as (L1 & _).
  apply wp_returns_ex in H. destruct H as ([[[m l] r] q] & HR & -> & -> & ->). exists l.
  rewrite rows_calls in HR. fold P in HR.
  rewrite (ask_call P 39 z 16) in HR by exact Lz.
  rewrite (ask_call P 44) in HR by (rewrite zlen_cons; lia).
  rewrite (ask_call P 64) in HR by exact L1. exact HR.
Qed.
Print Assumptions C60_keypair.

Theorem C60_enc : forall C rb rc mem ct ss pk PK mu,
  let P := cP C in
  valid P -> build_ok C -> bytestr (bytesMu P) mu -> delivers rb (bytesMu P) mu rc ->
  holds mem pk (pkBytes P) PK -> bytes_ok PK ->
  region mem ct (ctBytes P) -> region mem ss (pCB P) -> disjoint ct (ctBytes P) pk (pkBytes P) ->
  let '(CT, SS) := Encaps P (cGen C) PK mu in
  let pkh := Hash P PK (pCB P) in
  let seedSE := firstn (Z.to_nat (pCB P)) (Hash P (pkh ++ mu) (2 * pCB P)) in
  let k := skipn (Z.to_nat (pCB P)) (Hash P (pkh ++ mu) (2 * pCB P)) in
  exists l, returns (crypto_kem_enc_asks C rb mem ct ss pk) (stored (stored mem ct CT) ss SS, l, 0,
    [call P 103 PK (pCB P); call P 108 (pkh ++ mu) (2 * pCB P); call P 113 (0x96 :: seedSE) (2 * spLen P)] ++
    row_calls (cGen C) (pN P) (firstn 16 PK) ++ [call P 135 (CT ++ k) (pCB P)]).
Proof.
  intros C rb rc mem ct ss pk PK mu P V Hb (Lmu & Bmu) Hrb ((Hpk & Hpk2) & <-) Bpk (Hct & Hct2) (Hss & Hss2) Hd.
  assert (Hd' : ct + bytesB P <= pk + 16 \/ pk + pkBytes P <= ct).
  { destruct (sizes C V) as (_ & H & _). unfold disjoint, ctBytes in Hd. pose proof (bytesC_eq P). fold P in H. lia. }
  pose proof (enc_asks_wp C V rb rc mem ct ss pk mu Hb Lmu Bmu Hrb Hpk Hpk2 Bpk Hct Hct2 Hss Hss2 Hd') as H.
  fold P in H. pose proof (v_CB P V) as HC.
  assert (LPK : zlen (zslice mem pk (pkBytes P)) = pkBytes P).
  { apply zlen_zslice; [exact Hpk| |exact Hpk2]. destruct (sizes C V) as (S1 & S2 & _ & _ & _ & S3 & _ & _ & _ & S7 & _).
    fold P in S1, S2, S3, S7. nia. }
  set (PK := zslice mem pk (pkBytes P)) in *.
  pose proof (Encaps_shape P (cGen C) V PK mu) as HS.
  destruct (Encaps P (cGen C) PK mu) as [CT SS]. cbv zeta in *.
  apply wp_returns_ex in H. destruct H as ([[[m l] r] q] & HR & -> & -> & ->). exists l.
  set (pkh := Hash P PK (pCB P)) in *. set (G2 := Hash P (pkh ++ mu) (2 * pCB P)) in *.
  assert (Lh : zlen pkh = pCB P) by (apply (zlen_Hash C V); lia).
  assert (LG : zlen G2 = 2 * pCB P) by (apply (zlen_Hash C V); lia).
  rewrite rows_calls in HR. fold P in HR.
  rewrite (ask_call P 103) in HR by exact LPK.
  rewrite (ask_call P 108) in HR by (rewrite zlen_app; lia).
  rewrite (ask_call P 113) in HR by (rewrite zlen_cons; unfold zlen in *; rewrite firstn_length; lia).
  rewrite (ask_call P 135) in HR by (rewrite zlen_app, (proj1 HS); unfold zlen in *; rewrite skipn_length; lia).
  exact HR.
Qed.
Print Assumptions C60_enc.

(** Decapsulation hashes for the noise even when the ciphertext will be rejected; only the string for the shared
    secret depends on the outcome. *)
Theorem C60_dec : forall C mem ss ct sk CT SK,
  let P := cP C in
  valid P -> build_ok C ->
  holds mem sk (skBytes P) SK -> bytes_ok SK -> sk mod 2 = 0 ->
  holds mem ct (ctBytes P) CT -> bytes_ok CT -> region mem ss (pCB P) ->
  let mu' := Decrypt P SK CT in
  let seedSE := firstn (Z.to_nat (pCB P)) (Hash P (sk_pkh P SK ++ mu') (2 * pCB P)) in
  exists l k, returns (crypto_kem_dec_asks C mem ss ct sk) (stored mem ss (Decaps P (cGen C) SK CT), l, 0,
    [call P 201 (sk_pkh P SK ++ mu') (2 * pCB P); call P 206 (0x96 :: seedSE) (2 * spLen P)] ++
    row_calls (cGen C) (pN P) (sk_seedA P SK) ++ [call P 236 (CT ++ k) (pCB P)]) /\
    (CT = reencrypt P (cGen C) SK mu' -> k = key_of P SK mu') /\
    (CT <> reencrypt P (cGen C) SK mu' -> k = sk_s P SK).
Proof.
  intros C mem ss ct sk CT SK P V Hb ((Hsk & Hsk2) & <-) Bsk Hal ((Hct & Hct2) & <-) Bct (Hss & Hss2).
  pose proof (dec_asks_wp C V mem ss ct sk Hb Hsk Hsk2 Bsk Hal Hct Hct2 Bct Hss Hss2) as H.
  cbv zeta in H. fold P in H. cbv zeta. pose proof (v_CB P V) as HC.
  destruct (sizes C V) as (S1 & S2 & S0 & S4 & S5 & S3 & S6 & _ & S9 & S7 & S8 & _).
  fold P in S0, S1, S2, S3, S4, S5, S6, S7, S8, S9.
  assert (LCT : zlen (zslice mem ct (ctBytes P)) = ctBytes P).
  { apply zlen_zslice; [exact Hct| |exact Hct2]. unfold ctBytes. pose proof (bytesC_eq P). nia. }
  assert (LSK : zlen (zslice mem sk (skBytes P)) = skBytes P).
  { apply zlen_zslice; [exact Hsk| |exact Hsk2]. nia. }
  set (CT := zslice mem ct (ctBytes P)) in *. set (SK := zslice mem sk (skBytes P)) in *.
  set (mu := Decrypt P SK CT) in *. set (G2 := Hash P (sk_pkh P SK ++ mu) (2 * pCB P)) in *.
  apply wp_returns_ex in H. destruct H as ([[[m l] r] q] & HR & -> & -> & ->).
  exists l, (dec_key P (cGen C) SK CT).
  assert (Lh : zlen (sk_pkh P SK) = pCB P) by (unfold sk_pkh; change (part ?l ?o ?n) with (zslice l o n); apply zlen_zslice; nia).
  assert (Lmu : zlen mu = bytesMu P) by (unfold mu, Decrypt, decode_spec; rewrite zlen_regroup; lia).
  assert (LG : zlen G2 = 2 * pCB P) by (apply (zlen_Hash C V); lia).
  pose proof (dec_key_shape C SK CT V LSK Bsk) as (Lk & _). fold P in Lk.
  rewrite rows_calls in HR. fold P in HR.
  rewrite (ask_call P 201) in HR by (rewrite zlen_app; lia).
  rewrite (ask_call P 206) in HR by (rewrite zlen_cons; unfold zlen in *; rewrite firstn_length; lia).
  rewrite (ask_call P 236) in HR by (rewrite zlen_app; lia).
  split; [exact HR|].
  pose proof (accepted_matrices P (cGen C) V SK CT LCT Bct) as HA. unfold accepted in HA.
  unfold dec_key, key_of. unfold Encrypt in *. cbv zeta in *. fold mu in HA |- *.
  destruct (list_eq_dec _ _ _) as [E|E]; split; intros E'; try reflexivity; exfalso; tauto.
Qed.
Print Assumptions C60_dec.

(** ** Separation.  What a line hashes for: *)
Inductive purpose := SeedOfA | KeyNoise | PkDigest | Derivation | EncNoise | SharedSecret | RowOfA.
Definition purpose_of (line : Z) : option purpose :=
  if line =? 39 then Some SeedOfA                                        (* seed_A from z *)
  else if line =? 44 then Some KeyNoise                                  (* S and E *)
  else if (line =? 64) || (line =? 103) then Some PkDigest               (* H(pk) *)
  else if (line =? 108) || (line =? 201) then Some Derivation            (* seedSE and k *)
  else if (line =? 113) || (line =? 206) then Some EncNoise              (* S', E' and E'' *)
  else if (line =? 135) || (line =? 236) then Some SharedSecret          (* ss *)
  else if line =? 0 then Some RowOfA
  else None.

(** A call of the API on any buffers, keys, ciphertexts and random bytes that returns, and what it hashed. *)
Inductive kem_run (C : config) : list query -> Prop :=
| run_keypair rb rc mem pk sk s seedSE z mem' l r qs :
    bytestr (pCB (cP C)) s -> bytestr (pCB (cP C)) seedSE -> bytestr 16 z ->
    delivers rb (2 * pCB (cP C) + 16) (s ++ seedSE ++ z) rc ->
    region mem pk (pkBytes (cP C)) -> region mem sk (skBytes (cP C)) ->
    disjoint pk (pkBytes (cP C)) sk (skBytes (cP C)) ->
    returns (crypto_kem_keypair_asks C rb mem pk sk) (mem', l, r, qs) -> kem_run C qs
| run_enc rb rc mem ct ss pk PK mu mem' l r qs :
    bytestr (bytesMu (cP C)) mu -> delivers rb (bytesMu (cP C)) mu rc ->
    holds mem pk (pkBytes (cP C)) PK -> bytes_ok PK ->
    region mem ct (ctBytes (cP C)) -> region mem ss (pCB (cP C)) ->
    disjoint ct (ctBytes (cP C)) pk (pkBytes (cP C)) ->
    returns (crypto_kem_enc_asks C rb mem ct ss pk) (mem', l, r, qs) -> kem_run C qs
| run_dec mem ss ct sk CT SK mem' l r qs :
    holds mem sk (skBytes (cP C)) SK -> bytes_ok SK -> sk mod 2 = 0 ->
    holds mem ct (ctBytes (cP C)) CT -> bytes_ok CT -> region mem ss (pCB (cP C)) ->
    returns (crypto_kem_dec_asks C mem ss ct sk) (mem', l, r, qs) -> kem_run C qs.

Definition shipped (P : params) : Prop := P = frodo640 \/ P = frodo976 \/ P = frodo1344.
Lemma shipped_valid P : shipped P -> valid P.
Proof. intros [-> | [-> | ->]]; [exact valid_640|exact valid_976|exact valid_1344]. Qed.

(** The form of the strings hashed for a purpose. *)
Definition form (P : params) (r : purpose) (x : list Z) : Prop :=
  match r with
  | SeedOfA => zlen x = 16
  | KeyNoise => zlen x = 1 + pCB P /\ znth x 0 = 0x5F
  | PkDigest => zlen x = pkBytes P
  | Derivation => zlen x = pCB P + bytesMu P
  | EncNoise => zlen x = 1 + pCB P /\ znth x 0 = 0x96
  | SharedSecret => zlen x = ctBytes P + pCB P
  | RowOfA => zlen x = 18
  end.
Definition formed (P : params) (q : query) : Prop :=
  exists r, purpose_of (q_line q) = Some r /\ form P r (q_in q).

Lemma formed_rows g P N x q : zlen x = 16 -> In q (row_calls g N x) -> formed P q.
Proof.
  intros L H. destruct g; [contradiction|]. apply in_map_iff in H. destruct H as (i & <- & _).
  exists RowOfA. split; [reflexivity|]. cbn [q_in form]. rewrite zlen_app, L. reflexivity.
Qed.

Theorem C60_formed : forall C qs q, valid (cP C) -> build_ok C -> kem_run C qs -> In q qs -> formed (cP C) q.
Proof.
  intros C qs q V Hb HR Hq. pose proof (v_CB _ V) as HC.
  destruct (sizes C V) as (S1 & S2 & S0 & S4 & S5 & S3 & S6 & _ & S9 & S7 & S8 & _).
  destruct HR as [rb rc mem pk sk s seedSE z mem' l r qs Hs Hse Hz Hrb Rpk Rsk Hd HR
                 |rb rc mem ct ss pk PK mu mem' l r qs Hmu Hrb Hpk Bpk Rct Rss Hd HR
                 |mem ss ct sk CT SK mem' l r qs Hsk Bsk Hal Hct Bct Rss HR].
  - pose proof (C60_keypair C rb rc mem pk sk s seedSE z V Hs Hse Hz Hrb Rpk Rsk Hd) as H. cbv zeta in H.
    pose proof (KeyGen_parts (cP C) (cGen C) V s seedSE z (proj1 Hs)) as K.
    destruct (KeyGen _ _ _ _ _) as [PK SK]. destruct K as (L1 & _). destruct H as (l' & H).
    pose proof (returns_inj _ _ _ HR H) as E. assert (Eq := f_equal snd E). cbn [snd] in Eq. subst qs.
    apply in_app_or in Hq; destruct Hq as [[<-|[<-|[]]]|Hq]; [| |apply in_app_or in Hq; destruct Hq as [Hq|[<-|[]]]].
    + exists SeedOfA. split; [reflexivity|]. exact (proj1 Hz).
    + exists KeyNoise. split; [reflexivity|]. cbn [q_in call form]. rewrite zlen_cons, (proj1 Hse). split; [lia|reflexivity].
    + revert Hq; apply formed_rows, (zlen_Hash C V); lia.
    + exists PkDigest. split; [reflexivity|]. exact L1.
  - pose proof (C60_enc C rb rc mem ct ss pk PK mu V Hb Hmu Hrb Hpk Bpk Rct Rss Hd) as H. cbv zeta in H.
    pose proof (Encaps_shape (cP C) (cGen C) V PK mu) as HS.
    destruct (Encaps _ _ _ _) as [CT SS]. destruct HS as (L1 & _). destruct H as (l' & H).
    assert (LPK : zlen PK = pkBytes (cP C)).
    { destruct Hpk as ((Hp & Hp2) & <-). apply zlen_zslice; [exact Hp|nia|exact Hp2]. }
    set (pkh := Hash (cP C) PK (pCB (cP C))) in *. set (G2 := Hash (cP C) (pkh ++ mu) (2 * pCB (cP C))) in *.
    assert (Lh : zlen pkh = pCB (cP C)) by (apply (zlen_Hash C V); lia).
    assert (LG : zlen G2 = 2 * pCB (cP C)) by (apply (zlen_Hash C V); lia).
    pose proof (returns_inj _ _ _ HR H) as E. assert (Eq := f_equal snd E). cbn [snd] in Eq. subst qs.
    apply in_app_or in Hq; destruct Hq as [[<-|[<-|[<-|[]]]]|Hq]; [| | |apply in_app_or in Hq; destruct Hq as [Hq|[<-|[]]]].
    + exists PkDigest. split; [reflexivity|]. exact LPK.
    + exists Derivation. split; [reflexivity|]. cbn [q_in call form]. rewrite zlen_app, (proj1 Hmu). lia.
    + exists EncNoise. split; [reflexivity|]. cbn [q_in call form]. rewrite zlen_cons. split; [|reflexivity].
      unfold zlen in *; rewrite firstn_length; lia.
    + revert Hq; apply formed_rows. unfold zlen in *; rewrite firstn_length; nia.
    + exists SharedSecret. split; [reflexivity|]. cbn [q_in call form]. rewrite zlen_app, L1.
      unfold zlen in *; rewrite skipn_length; lia.
  - pose proof (C60_dec C mem ss ct sk CT SK V Hb Hsk Bsk Hal Hct Bct Rss) as H. cbv zeta in H.
    destruct H as (l' & k & H & K1 & K2).
    assert (LSK : zlen SK = skBytes (cP C)).
    { destruct Hsk as ((Hp & Hp2) & <-). apply zlen_zslice; [exact Hp|nia|exact Hp2]. }
    assert (LCT : zlen CT = ctBytes (cP C)).
    { destruct Hct as ((Hp & Hp2) & <-). apply zlen_zslice; [exact Hp| |exact Hp2].
      unfold ctBytes. pose proof (bytesC_eq (cP C)). nia. }
    set (mu := Decrypt (cP C) SK CT) in *. set (G2 := Hash (cP C) (sk_pkh (cP C) SK ++ mu) (2 * pCB (cP C))) in *.
    assert (Lmu : zlen mu = bytesMu (cP C)) by (unfold mu, Decrypt, decode_spec; rewrite zlen_regroup; lia).
    assert (LG : zlen G2 = 2 * pCB (cP C)) by (apply (zlen_Hash C V); lia).
    assert (Lh : zlen (sk_pkh (cP C) SK) = pCB (cP C)).
    { unfold sk_pkh. change (part ?l ?o ?n) with (zslice l o n). apply zlen_zslice; nia. }
    assert (La : zlen (sk_seedA (cP C) SK) = 16).
    { unfold sk_seedA. change (part ?l ?o ?n) with (zslice l o n). apply zlen_zslice; nia. }
    assert (Lk : zlen k = pCB (cP C)).
    { destruct (list_eq_dec Z.eq_dec CT (reencrypt (cP C) (cGen C) SK mu)) as [E|E].
      - rewrite (K1 E). unfold key_of. fold G2. unfold zlen in *; rewrite skipn_length; lia.
      - rewrite (K2 E). unfold sk_s. change (part ?l ?o ?n) with (zslice l o n). apply zlen_zslice; nia. }
    pose proof (returns_inj _ _ _ HR H) as E. assert (Eq := f_equal snd E). cbn [snd] in Eq. subst qs.
    apply in_app_or in Hq; destruct Hq as [[<-|[<-|[]]]|Hq]; [| |apply in_app_or in Hq; destruct Hq as [Hq|[<-|[]]]].
    + exists Derivation. split; [reflexivity|]. cbn [q_in call form]. rewrite zlen_app. lia.
    + exists EncNoise. split; [reflexivity|]. cbn [q_in call form]. rewrite zlen_cons. split; [|reflexivity].
      unfold zlen in *; rewrite firstn_length; lia.
    + revert Hq; apply formed_rows; exact La.
    + exists SharedSecret. split; [reflexivity|]. cbn [q_in call form]. rewrite zlen_app. lia.
Qed.
Print Assumptions C60_formed.

(** Whatever two calls of the API, of the same or of different parameter sets, the same string is not hashed
    for two purposes. *)
Theorem C60_separated : forall C1 C2 qs1 qs2 q1 q2,
  shipped (cP C1) -> shipped (cP C2) -> build_ok C1 -> build_ok C2 ->
  kem_run C1 qs1 -> kem_run C2 qs2 -> In q1 qs1 -> In q2 qs2 -> q_in q1 = q_in q2 ->
  exists p, purpose_of (q_line q1) = Some p /\ purpose_of (q_line q2) = Some p.
Proof.
  intros C1 C2 qs1 qs2 q1 q2 P1 P2 B1 B2 R1 R2 I1 I2 E.
  destruct (C60_formed C1 qs1 q1 (shipped_valid _ P1) B1 R1 I1) as (r1 & E1 & F1).
  destruct (C60_formed C2 qs2 q2 (shipped_valid _ P2) B2 R2 I2) as (r2 & E2 & F2).
  rewrite <- E in F2. exists r1. split; [exact E1|]. rewrite E2. f_equal.
  set (x := q_in q1) in *. clearbody x. clear - P1 P2 F1 F2.
  destruct P1 as [H1 | [H1 | H1]], P2 as [H2 | [H2 | H2]]; rewrite H1 in F1; rewrite H2 in F2; clear H1 H2;
    destruct r1, r2; cbn [form] in F1, F2; try reflexivity; exfalso;
    try (destruct F1 as (F1 & G1)); try (destruct F2 as (F2 & G2)); try (rewrite G1 in G2; discriminate);
    rewrite F1 in F2; discriminate.
Qed.
Print Assumptions C60_separated.

(** The hypotheses are met by FrodoKEM-976 and the memories of C05. *)
Example C60_hyps :
  shipped (cP C976) /\ build_ok C976 /\
  (exists qs q, kem_run C976 qs /\ In q qs /\ purpose_of (q_line q) = Some KeyNoise) /\
  (exists qs q, kem_run C976 qs /\ In q qs /\ purpose_of (q_line q) = Some EncNoise) /\
  (exists qs q, kem_run C976 qs /\ In q qs /\ purpose_of (q_line q) = Some SharedSecret).
Proof.
  pose proof C05_keypair_hyps as H; cbv zeta in H. destruct H as (K1 & K2 & K3 & K4 & K5 & K6 & K7).
  pose proof C05_enc_dec_hyps as (E1 & E2 & E3 & E4 & E5 & E6 & E7 & E8 & E9 & E10 & E11).
  split; [right; left; reflexivity|]. split; [exact E11|]. split; [|split].
  - pose proof (C60_keypair C976 _ _ _ _ _ _ _ _ valid_976 K1 K2 K3 K4 K5 K6 K7) as H. cbv zeta in H.
    destruct (KeyGen _ _ _ _ _) as [PK SK]. destruct H as (l & H).
    eexists; eexists. split; [exact (run_keypair C976 _ _ _ _ _ _ _ _ _ _ _ _ K1 K2 K3 K4 K5 K6 K7 H)|].
    split; [right; left; reflexivity|reflexivity].
  - assert (R : region mem976 1000 (ctBytes frodo976)) by exact (proj1 E7).
    pose proof (C60_enc C976 _ _ _ _ _ _ _ _ valid_976 E11 E1 E2 E3 E4 R E9 E10) as H. cbv zeta in H.
    destruct (Encaps _ _ _ _) as [CT SS]. destruct H as (l & H).
    eexists; eexists. split; [exact (run_enc C976 _ _ _ _ _ _ _ _ _ _ _ _ E1 E2 E3 E4 R E9 E10 H)|].
    split; [right; right; left; reflexivity|reflexivity].
  - pose proof (C60_dec C976 _ _ _ _ _ _ valid_976 E11 E5 E6 eq_refl E7 E8 E9) as H. cbv zeta in H.
    destruct H as (l & k & H & _).
    eexists; eexists. split; [exact (run_dec C976 _ _ _ _ _ _ _ _ _ _ E5 E6 eq_refl E7 E8 E9 H)|].
    split; [apply in_or_app; right; apply in_or_app; right; left; reflexivity|reflexivity].
Qed.
