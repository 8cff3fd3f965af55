(** C57: what an observer of the control flow and of the addresses sees of a run of the self test
    kem_test (tests/test_kem.c), the program that the build with DO_VALGRIND_CHECK runs under memcheck.
    The annotations of that build mark every byte the library draws, and with them the keys, the
    ciphertext and the shared secret, as undefined (kem.c:36-37,105-106,184-185); only the shared secrets
    are marked as defined, before they are compared (test_kem.c:49-51,66-67,75-76). *)
From Verif Require Import CSem Params FrodoSpec FrodoFacts Kem KemProofs KemWp PropMatrix PropKem TestKem PropTest LowProofs LowKem PropCT PropKem2.
From Verif Require KatProofs.

(** Two computations with the same verdict leave the same trace. *)
Definition low_verdict (m1 m2 : res (list Z * bool)) : Prop :=
  forall a1 b t1 a2 t2, m1 = Ok (a1, b) t1 -> m2 = Ok (a2, b) t2 -> t1 = t2 /\ samelen a1 a2.
Lemma low_verdict_bind {A B} (m1 : res A) (m2 : res B) (R : A -> B -> Prop) f1 f2 : low m1 m2 R ->
  (forall a b, R a b -> low_verdict (f1 a) (f2 b)) -> low_verdict (bind m1 f1) (bind m2 f2).
Proof.
  intros H Hf a1 v t1 a2 t2 E1 E2. destruct m1 as [a t|]; [|discriminate E1]. destruct m2 as [b u|]; [|discriminate E2].
  destruct (H _ _ _ _ eq_refl eq_refl) as (-> & HR). specialize (Hf _ _ HR).
  cbn [bind] in E1, E2. destruct (f1 a) as [x tx|] eqn:Ex; [|discriminate E1]. destruct (f2 b) as [y ty|] eqn:Ey; [|discriminate E2].
  injection E1 as -> <-. injection E2 as -> <-. destruct (Hf _ _ _ _ _ eq_refl eq_refl) as (-> & HS). split; [reflexivity|exact HS].
Qed.
Lemma low_verdict_ret x1 x2 b1 b2 : samelen x1 x2 -> low_verdict (ret (x1, b1)) (ret (x2, b2)).
Proof. intros H a1 v t1 a2 t2 E1 E2. injection E1 as <- _ <-. injection E2 as <- _ <-. split; [reflexivity|exact H]. Qed.
Lemma low_verdict_branch c m1 m1' m2 m2' : low_verdict m1 m2 -> low_verdict m1' m2' -> low_verdict (branch c m1 m1') (branch c m2 m2').
Proof. intros H H'. unfold branch. apply (low_verdict_bind _ _ (fun _ _ => True)); [apply low_emit|]. intros _ _ _. destruct c; assumption. Qed.
(** The last comparison: it decides the verdict. *)
Lemma low_verdict_last c1 c2 x1 x2 : samelen x1 x2 ->
  low_verdict (branch c1 (ret (x1, false)) (ret (x1, true))) (branch c2 (ret (x2, false)) (ret (x2, true))).
Proof.
  intros H a1 b t1 a2 t2 E1 E2.
  assert (c1 = negb b) by (destruct c1; injection E1 as _ <- _; reflexivity). assert (c2 = negb b) by (destruct c2; injection E2 as _ <- _; reflexivity). subst.
  revert E1 E2. apply low_verdict_branch; apply low_verdict_ret, H.
Qed.
Lemma low_xor_word en m1 m2 ct p : samelen m1 m2 -> low (xor_word en m1 ct p) (xor_word en m2 ct p) samelen.
Proof.
  intros H. unfold xor_word. eapply low_bind; [apply low_refl with (R := fun _ _ => True); auto|]. intros _ _ _.
  eapply low_bind; [apply low_rd|]. intros x1 x2 _. eapply low_bind; [apply low_rd|]. intros y1 y2 _. eapply low_bind; [apply low_wr, H|]. intros a b Hab. apply low_wr, Hab.
Qed.
Lemma low_same_in m1 m2 a b n : low (same_in m1 a b n) (same_in m2 a b n) (fun _ _ => True).
Proof. unfold same_in. eapply low_bind; [apply low_sub|]. intros x1 x2 _. eapply low_bind; [apply low_sub|]. intros y1 y2 _. apply low_ret, I. Qed.

Section Turn.
Context (C : config).
Notation P := (cP C).
Hypothesis V : valid P.
Hypothesis Hb : build_ok C.
Hypothesis Hct : ctBytes P <= 131072.
(** The seed of A, and where it is after key generation. *)
Notation seed r := (Hash P (r_z r) 16).
Definition keys_in (fr : tframe) (r : draws) (m : list Z) : Prop :=
  let '(PK, SK) := KeyGen P (cGen C) (r_s r) (r_se r) (r_z r) in
  holds m (t_pk fr) (pkBytes P) PK /\ bytes_ok PK /\ holds m (t_sk fr) (skBytes P) SK.
Lemma keys_seed fr r m : drawn P r -> keys_in fr r m -> zslice m (t_pk fr) 16 = seed r /\ zslice m (t_sk fr + pCB P) 16 = seed r.
Proof.
  intros (D1 & _) H. unfold keys_in in H. destruct (F_sizes P (cGen C) V) as (HN & HD & HB & HCB & HDN & ENN & EbB & EbC & EbMu & Epk & Esk & Ect).
  pose proof (KeyGen_parts P (cGen C) V (r_s r) (r_se r) (r_z r) (proj1 D1)) as K.
  destruct (KeyGen P (cGen C) (r_s r) (r_se r) (r_z r)) as [PK SK]. destruct K as (_ & _ & _ & _ & E & _ & _ & _ & _ & E' & _).
  destruct H as (((H1 & H2) & H3) & _ & ((H4 & H5) & H6)). pose proof (F_zlen_Hash P (cGen C) V (r_z r) 16 ltac:(lia)) as L. split.
  - rewrite <- (Z.add_0_r (t_pk fr)), <- (part_mem m (t_pk fr) (pkBytes P)) by lia. rewrite H3, E. change (part ?l ?o ?n) with (zslice l o n). apply zslice_app1. exact L.
  - rewrite <- (part_mem m (t_sk fr) (skBytes P)) by lia. rewrite H6. exact E'.
Qed.

(** After key generation the public key is in place. *)
Lemma keypair_bytes fr mem rk r c : tarrays P mem fr -> drawn P r -> delivers rk (2 * pCB P + 16) (r_s r ++ r_se r ++ r_z r) c ->
  wp (crypto_kem_keypair C rk mem (t_pk fr) (t_sk fr)) (fun x => zlen (fst (fst x)) = zlen mem /\ bytes_ok (zslice (fst (fst x)) (t_pk fr) (pkBytes P)) /\ keys_in fr r (fst (fst x))).
Proof.
  intros (Rpk & Rsk & _ & _ & _ & Ds & _) (D1 & D2 & D3 & _) G. destruct (tsizes C V) as (HCB & Hpk & Hsk & _).
  assert (Dps : disjoint (t_pk fr) (pkBytes P) (t_sk fr) (skBytes P)).
  { inversion Ds as [|? ? X _]; subst. rewrite Forall_forall in X. exact (X (t_sk fr, skBytes P) ltac:(cbn; auto)). }
  pose proof (C05_keypair C rk c mem (t_pk fr) (t_sk fr) _ _ _ V D1 D2 D3 G Rpk Rsk Dps) as H. cbv zeta in H.
  pose proof (KeyGen_parts P (cGen C) V (r_s r) (r_se r) (r_z r) (proj1 D1)) as K.
  unfold keys_in. destruct (KeyGen P (cGen C) (r_s r) (r_se r) (r_z r)) as [PK SK]. destruct K as (LP & BP & LS & _). destruct H as (l & H).
  eapply wp_mono; [apply returns_wp, H|]. intros x ->. cbn [fst].
  assert (L1 : zlen (stored mem (t_pk fr) PK) = zlen mem) by (apply zlen_zsplice; unfold region in *; lia).
  assert (R2 : region (stored mem (t_pk fr) PK) (t_sk fr) (zlen SK)) by (unfold region in *; rewrite L1, LS; exact Rsk).
  split; [unfold stored at 1; rewrite zlen_zsplice by (unfold region in R2; lia); exact L1|].
  assert (Hh : holds (stored (stored mem (t_pk fr) PK) (t_sk fr) SK) (t_pk fr) (pkBytes P) PK).
  { eapply (KatProofs.holds_other _ _ (skBytes P)); [apply KatProofs.holds_same; [exact Rpk|exact LP|lia]|rewrite LS in R2; exact R2|exact LS|lia|lia|]. unfold disjoint in *; lia. }
  split; [rewrite (proj2 Hh); exact BP|]. split; [exact Hh|]. split; [exact BP|]. rewrite LS in R2. apply KatProofs.holds_same; [exact R2|exact LS|lia].
Qed.
(** Encapsulation leaves the secret key alone. *)
Lemma enc_keeps fr mem re r c : tarrays P mem fr -> drawn P r -> keys_in fr r mem -> delivers re (bytesMu P) (r_mu r) c ->
  wp (crypto_kem_enc C re mem (t_ct fr) (t_sse fr) (t_pk fr)) (fun x => zslice (fst (fst x)) (t_sk fr + pCB P) 16 = seed r).
Proof.
  intros T D HK G. pose proof (keys_seed fr r mem D HK) as (_ & Hs). unfold keys_in in HK.
  destruct (KeyGen P (cGen C) (r_s r) (r_se r) (r_z r)) as [PK SK]. destruct HK as (H1 & B1 & H2).
  destruct (tdisjoint C mem fr T) as (_ & Dcp & Dcs & Des & _). destruct T as (Rpk & Rsk & Rct & Rse & _).
  destruct (F_sizes P (cGen C) V) as (HN & HD & HB & HCB & HDN & ENN & EbB & EbC & EbMu & Epk & Esk & Ect).
  destruct D as (_ & _ & _ & Dmu & _).
  pose proof (C05_enc C re c mem (t_ct fr) (t_sse fr) (t_pk fr) PK (r_mu r) V Hb Dmu G H1 B1 Rct Rse Dcp) as HE. cbv zeta in HE.
  pose proof (Encaps_shape P (cGen C) V PK (r_mu r)) as SH. destruct (Encaps P (cGen C) PK (r_mu r)) as [CT SS]. destruct SH as (LCT & _ & LSS & _).
  destruct HE as (l & HE). eapply wp_mono; [apply returns_wp, HE|]. intros x ->. cbn [fst]. unfold region, disjoint in *.
  assert (L1 : zlen (stored mem (t_ct fr) CT) = zlen mem) by (apply zlen_zsplice; lia).
  unfold stored at 1. rewrite zslice_zsplice_other by lia. unfold stored. rewrite zslice_zsplice_other by lia. exact Hs.
Qed.

(** A turn up to the first comparison, and the rest of it. *)
Definition first (fr : tframe) (rk re : generator) (mem : list Z) : res (list Z * bool) :=
  '(mem, _, _) <- crypto_kem_keypair C rk mem (t_pk fr) (t_sk fr) ;;
  '(mem, _, _) <- crypto_kem_enc C re mem (t_ct fr) (t_sse fr) (t_pk fr) ;;
  '(mem, _, _) <- crypto_kem_dec C mem (t_ssd fr) (t_ct fr) (t_sk fr) ;;
  same <- same_in mem (t_sse fr) (t_ssd fr) (pCB P) ;; ret (mem, same).
Definition second (fr : tframe) (rp : generator) (mem : list Z) : res (list Z * bool) :=
  '(bytes, _) <- rp (uninit 4) 4 ;;
  b0 <- rd bytes 0 ;; b1 <- rd bytes 1 ;; b2 <- rd bytes 2 ;; b3 <- rd bytes 3 ;;
  let pos := u32_at (cEn C) b0 b1 b2 b3 mod (ctBytes P / 2) in
  pos <- branch (pos =? 0) (ret 1) (ret pos) ;;
  mem <- xor_word (cEn C) mem (t_ct fr) pos ;;
  '(mem, _, _) <- crypto_kem_dec C mem (t_ssd fr) (t_ct fr) (t_sk fr) ;;
  x <- sub mem (t_ct fr) (ctBytes P) ;;
  Fin <- memcpy (uninit (ctBytes P + pCB P)) 0 x 0 (ctBytes P) ;;
  x <- sub mem (t_sk fr) (pCB P) ;;
  Fin <- memcpy Fin (ctBytes P) x 0 (pCB P) ;;
  mem <- shake_to P mem (t_sse fr) (pCB P) Fin (ctBytes P + pCB P) ;;
  same <- same_in mem (t_sse fr) (t_ssd fr) (pCB P) ;;
  branch (negb same) (ret (mem, false)) (ret (mem, true)).
Lemma kem_turn_halves fr rk re rp mem : kem_turn C fr rk re rp mem =
  bind (first fr rk re mem) (fun x => branch (negb (snd x)) (ret (fst x, false)) (second fr rp (fst x))).
Proof.
  unfold kem_turn, first.
  destruct (crypto_kem_keypair C rk mem (t_pk fr) (t_sk fr)) as [[[m l] rc] t|]; cbn [bind]; [|reflexivity].
  destruct (crypto_kem_enc C re m (t_ct fr) (t_sse fr) (t_pk fr)) as [[[m' l'] rc'] t'|]; cbn [bind]; [|reflexivity].
  destruct (crypto_kem_dec C m' (t_ssd fr) (t_ct fr) (t_sk fr)) as [[[m'' l''] rc''] t''|]; cbn [bind]; [|reflexivity].
  destruct (same_in m'' (t_sse fr) (t_ssd fr) (pCB P)) as [e u|]; cbn [bind ret fst snd]; [|reflexivity].
  unfold second.
  match goal with |- context [branch (negb e) ?a ?b] => destruct (branch (negb e) a b) as [v w|] end; [|reflexivity].
  rewrite app_nil_r, <- !app_assoc. reflexivity.
Qed.
(** The first comparison finds the secrets equal. *)
Definition honest (r : draws) : Prop :=
  let '(PK, SK) := KeyGen P (cGen C) (r_s r) (r_se r) (r_z r) in
  let '(CT, SS) := Encaps P (cGen C) PK (r_mu r) in Decaps P (cGen C) SK CT = SS.
Lemma first_wp fr mem rk re r c1 c2 : tarrays P mem fr -> drawn P r ->
  delivers rk (2 * pCB P + 16) (r_s r ++ r_se r ++ r_z r) c1 -> delivers re (bytesMu P) (r_mu r) c2 ->
  wp (first fr rk re mem) (fun x => zlen (fst x) = zlen mem /\ (snd x = true <-> honest r) /\ zslice (fst x) (t_sk fr + pCB P) 16 = seed r).
Proof.
  intros HT HD G1 G2. unfold first. apply (first_half C V Hb fr mem rk re r c1 c2 (fun mem same => ret (mem, same))); try assumption.
  intros m e Lm H. apply wp_ret. cbn [fst snd]. split; [exact Lm|].
  pose proof (KeyGen_parts P (cGen C) V (r_s r) (r_se r) (r_z r) (proj1 (proj1 HD))) as K.
  destruct (F_sizes P (cGen C) V) as (HN & HD' & HB & HCB & HDN & ENN & EbB & EbC & EbMu & Epk & Esk & Ect).
  unfold honest. destruct (KeyGen P (cGen C) (r_s r) (r_se r) (r_z r)) as [PK SK]. destruct K as (_ & _ & _ & _ & _ & _ & _ & _ & _ & E' & _).
  destruct (Encaps P (cGen C) PK (r_mu r)) as [CT SS]. split; [exact (proj2 (proj2 H))|].
  destruct H as (((H4 & H5) & H6) & _). rewrite <- (part_mem m (t_sk fr) (skBytes P)) by lia. rewrite H6. exact E'.
Qed.

Variables (rb1 rb2 : Z -> generator).
(** The generator is called in the same way in the two runs; what it delivers differs. *)
Hypothesis Halike : forall k l n, low (rb1 k l n) (rb2 k l n) (fun _ _ => True).

Lemma first_low fr k m1 m2 r1 r2 c1 c2 d1 d2 : zlen m1 = zlen m2 -> tarrays P m1 fr -> tarrays P m2 fr -> drawn P r1 -> drawn P r2 ->
  delivers (rb1 k) (2 * pCB P + 16) (r_s r1 ++ r_se r1 ++ r_z r1) c1 -> delivers (rb1 (k + 1)) (bytesMu P) (r_mu r1) c2 ->
  delivers (rb2 k) (2 * pCB P + 16) (r_s r2 ++ r_se r2 ++ r_z r2) d1 -> delivers (rb2 (k + 1)) (bytesMu P) (r_mu r2) d2 ->
  (table_aes C -> r_z r1 = r_z r2) ->
  low (first fr (rb1 k) (rb1 (k + 1)) m1) (first fr (rb2 k) (rb2 (k + 1)) m2) (fun x y => samelen (fst x) (fst y)).
Proof.
  intros Lm T1 T2 D1 D2 G1 G2 G1' G2' Ez. destruct (tsizes C V) as (HCB & Hpk & Hsk & Hct4 & Hmu).
  pose proof (keypair_bytes fr m1 _ r1 c1 T1 D1 G1) as W1. pose proof (keypair_bytes fr m2 _ r2 d1 T2 D2 G1') as W2.
  assert (X1 : forall m, zlen m = zlen m1 -> keys_in fr r1 m -> wp (crypto_kem_enc C (rb1 (k + 1)) m (t_ct fr) (t_sse fr) (t_pk fr)) (fun x => zslice (fst (fst x)) (t_sk fr + pCB P) 16 = seed r1)).
  { intros m E HK. apply (enc_keeps fr m _ r1 c2); try assumption. unfold tarrays, region in *. rewrite E. exact T1. }
  assert (X2 : forall m, zlen m = zlen m2 -> keys_in fr r2 m -> wp (crypto_kem_enc C (rb2 (k + 1)) m (t_ct fr) (t_sse fr) (t_pk fr)) (fun x => zslice (fst (fst x)) (t_sk fr + pCB P) 16 = seed r2)).
  { intros m E HK. apply (enc_keeps fr m _ r2 d2); try assumption. unfold tarrays, region in *. rewrite E. exact T2. }
  pose proof (keys_seed fr r1) as K1. pose proof (keys_seed fr r2) as K2. pose proof D1 as D1'. pose proof D2 as D2'.
  assert (Es : table_aes C -> seed r1 = seed r2) by (intros H; rewrite (Ez H); reflexivity).
  destruct T1 as ((A1 & A2) & _). destruct T2 as ((A1' & A2') & _).
  destruct D1 as ((S1 & S1') & (S2 & S2') & (S3 & S3') & (Mu & _) & _). destruct D2 as ((U1 & U1') & (U2 & U2') & (U3 & U3') & (Mu' & _) & _).
  destruct G1 as (t1 & G1), G1' as (u1 & G1'), G2 as (t2 & G2), G2' as (u2 & G2').
  destruct (Halike _ _ _ _ _ _ _ G1 G1') as (<- & _). destruct (Halike _ _ _ _ _ _ _ G2 G2') as (<- & _).
  assert (Zt : forall a b z : list Z, zlen a = pCB P -> zlen b = pCB P -> zlen z = 16 -> zslice (a ++ b ++ z) (2 * pCB P) 16 = z).
  { intros a b z La Lb Lz. rewrite app_assoc. apply zslice_app2; [rewrite zlen_app; lia|exact Lz]. }
  unfold first. eapply low_bind_wp; [eapply (low_keypair C V); [exact Lm|exact A1|exact A2| | | | |exact G1|exact G1'|apply seed_rel_of; intros H; rewrite !Zt by assumption; exact (Ez H)]|exact W1|exact W2|].
  1,2: rewrite !zlen_app; lia. 1,2: repeat apply inrange_app; assumption.
  intros [[a la] ra] [[b lb] rb] Hr (La & Ba & Ka) (Lb & Bb & Kb). unfold mem_rel in Hr. cbn [fst snd] in *.
  destruct (K1 a D1' Ka) as (Ea & _). destruct (K2 b D2' Kb) as (Eb & _).
  eapply low_bind_wp; [eapply (low_enc C V); [exact Hr|exact A1|rewrite La; exact A2|exact Ba|exact Bb|apply seed_rel_of; intros H; rewrite Ea, Eb; exact (Es H)|exact Mu|exact Mu'|exact G2|exact G2']|apply X1; assumption|apply X2; assumption|].
  clear Hr. clear La Ba Lb Bb Ea Eb Ka Kb. intros [[a' la'] ra'] [[b' lb'] rb'] Hr Ea Eb. unfold mem_rel in Hr. cbn [fst snd] in *.
  eapply low_bind; [apply (low_dec C); [exact Hr|apply seed_rel_of; intros H; rewrite Ea, Eb; exact (Es H)]|].
  clear Hr. intros [[a'' la''] ra''] [[b'' lb''] rb''] Hr. unfold mem_rel in Hr. cbn [fst snd] in *.
  eapply low_bind; [apply low_same_in|]. intros e1 e2 _. apply low_ret. exact Hr.
Qed.
(** The position is in the ciphertext, and nothing else changes there. *)
Lemma low_refl_inv {A} (m : res A) (Q : A -> Prop) : (forall a t, m = Ok a t -> Q a) -> low m m (fun a b => a = b /\ Q a).
Proof. intros H a1 t1 a2 t2 E1 E2. rewrite E1 in E2. injection E2 as <- <-. split; [reflexivity|]. split; [reflexivity|exact (H _ _ E1)]. Qed.
Lemma low_inv {A B} (m1 : res A) (m2 : res B) R (Q1 : A -> Prop) (Q2 : B -> Prop) : low m1 m2 R ->
  (forall a, returns m1 a -> Q1 a) -> (forall b, returns m2 b -> Q2 b) -> low m1 m2 (fun a b => R a b /\ Q1 a /\ Q2 b).
Proof. intros H H1 H2 a1 t1 a2 t2 E1 E2. destruct (H _ _ _ _ E1 E2) as (Et & HR). split; [exact Et|]. split; [exact HR|]. split; [apply H1|apply H2]; eexists; eassumption. Qed.
Lemma bind_inv {A B} (m : res A) (f : A -> res B) v : returns (bind m f) v -> exists a, returns m a /\ returns (f a) v.
Proof.
  intros (t & E). unfold bind in E. destruct m as [a t1|e]; [|discriminate]. exists a. split; [exists t1; reflexivity|].
  destruct (f a) as [b t2|e] eqn:F; [|discriminate]. injection E; intros _ ->. exists t2; reflexivity.
Qed.
Lemma wr_inv l i v l' : returns (wr l i v) l' -> 0 <= i < zlen l /\ l' = zset l i v.
Proof.
  intros (t & E). unfold wr in E. destruct (Z.leb_spec 0 i); [|discriminate]. destruct (Z.ltb_spec i (zlen l)); [|discriminate].
  injection E; intros _ <-. split; [lia|reflexivity].
Qed.
Lemma xor_word_keeps en m ct p m' o : returns (xor_word en m ct p) m' -> (o + 16 <= ct + 2 * p \/ ct + 2 * p + 2 <= o) -> 0 <= o -> o + 16 <= zlen m -> zslice m' o 16 = zslice m o 16.
Proof.
  intros R Ho H0 Hm. unfold xor_word in R. apply bind_inv in R. destruct R as (u & _ & R). apply bind_inv in R. destruct R as (x & _ & R). apply bind_inv in R. destruct R as (y & _ & R).
  cbv zeta in R. apply bind_inv in R. destruct R as (ma & R1 & R2).
  apply wr_inv in R1. destruct R1 as (E1 & ->). apply wr_inv in R2. destruct R2 as (E2 & ->). rewrite zlen_zset in E2.
  apply list_ext; [rewrite !zlen_zslice; rewrite ?zlen_zset; lia|]. rewrite zlen_zslice by (rewrite ?zlen_zset; lia). intros i Hi.
  rewrite !znth_zslice by (rewrite ?zlen_zset; lia). rewrite !znth_zset_ne by (rewrite ?zlen_zset; lia). reflexivity.
Qed.
Lemma second_low fr k m1 m2 r1 r2 c3 d3 : samelen m1 m2 -> tarrays P m1 fr ->
  zslice m1 (t_sk fr + pCB P) 16 = seed r1 -> zslice m2 (t_sk fr + pCB P) 16 = seed r2 -> (table_aes C -> r_z r1 = r_z r2) ->
  delivers (rb1 (k + 2)) 4 (r_b r1) c3 -> delivers (rb2 (k + 2)) 4 (r_b r2) d3 -> r_b r1 = r_b r2 ->
  low_verdict (second fr (rb1 (k + 2)) m1) (second fr (rb2 (k + 2)) m2).
Proof.
  intros Hr T1 Z1 Z2 Ez (t3 & G3) (u3 & G3') Eb. assert (Es : table_aes C -> seed r1 = seed r2) by (intros H; rewrite (Ez H); reflexivity).
  destruct (tdisjoint C m1 fr T1) as (_ & _ & Dcs & _). destruct T1 as (_ & Rsk & Rct & _). unfold region, disjoint, samelen in *.
  destruct (F_sizes P (cGen C) V) as (HN & HD & HB & HCB & HDN & ENN & EbB & EbC & EbMu & Epk & Esk & Ect). destruct (Halike _ _ _ _ _ _ _ G3 G3') as (<- & _). unfold second.
  eapply low_verdict_bind; [eapply low_gen; [exact G3|exact G3']|]. intros x y (-> & ->). rewrite Eb.
  do 4 (eapply low_verdict_bind; [apply low_refl with (R := eq); reflexivity|]; intros ? ? <-).
  eapply low_verdict_bind; [apply (low_refl_inv _ (fun p => 0 <= p /\ 2 * p + 2 <= ctBytes P))|].
  { intros p t E. unfold branch in E. match type of E with context [?q =? 0] => pose proof (Z.mod_pos_bound (u32_at (cEn C) a a0 a1 a2) (ctBytes P / 2) ltac:(dlia)) as Hq; set (v := q) in * end.
    clearbody v. destruct (v =? 0); injection E as <- _; dlia. }
  intros p ? (<- & Hp1 & Hp2).
  eapply low_verdict_bind.
  { eapply (low_inv _ _ _ (fun m => zslice m (t_sk fr + pCB P) 16 = seed r1) (fun m => zslice m (t_sk fr + pCB P) 16 = seed r2)); [apply low_xor_word, Hr| |].
    - intros m R. rewrite <- Z1. apply (xor_word_keeps _ _ _ _ _ _ R); lia.
    - intros m R. rewrite <- Z2. apply (xor_word_keeps _ _ _ _ _ _ R); lia. }
  clear Hr. intros ma mb (Hr & Ea & Eb').
  eapply low_verdict_bind; [apply (low_dec C); [exact Hr|apply seed_rel_of; intros H; rewrite Ea, Eb'; exact (Es H)]|].
  clear Hr. intros [[mc ?] ?] [[md ?] ?] Hr. unfold mem_rel in Hr. cbn [fst snd] in *.
  eapply low_verdict_bind; [apply low_sub|]. intros x1 x2 (Hx & _). eapply low_verdict_bind; [apply low_memcpy; reflexivity|]. intros F1 F2 HF.
  eapply low_verdict_bind; [apply low_sub|]. intros y1 y2 (Hy & _). eapply low_verdict_bind; [apply low_memcpy, HF|]. intros F1' F2' HF'.
  eapply low_verdict_bind; [apply low_shake_to, Hr|]. intros a' b' Hr'.
  eapply low_verdict_bind; [apply low_same_in|]. intros e3 e4 _. apply low_verdict_last, Hr'.
Qed.

(** Two turns agree: on the position, on the outcomes of the two comparisons and, with the portable AES, on the bytes from
    which the public seed of A is made. *)
Definition alike (r1 r2 : draws) : Prop :=
  r_b r1 = r_b r2 /\ (table_aes C -> r_z r1 = r_z r2) /\ (honest r1 <-> honest r2) /\ (passes P (cGen C) (cEn C) r1 <-> passes P (cGen C) (cEn C) r2).
Lemma loop_low fr : forall k rs1, supplies P rb1 k rs1 -> forall rs2 m1 m2, supplies P rb2 k rs2 -> Forall2 alike rs1 rs2 ->
  zlen m1 = zlen m2 -> tarrays P m1 fr -> tarrays P m2 fr ->
  low (kem_loop (length rs1) C fr rb1 k m1) (kem_loop (length rs2) C fr rb2 k m2) (fun _ _ => True).
Proof.
  induction 1 as [k|k r1 rs1 c1 c2 c3 D1 G1 G2 G3 H1 IH]; intros rs2 m1 m2 H2 HF Lm T1 T2; inversion HF as [|? r2 ? rs2' (Eb & Ez & Eh & Ep) HF']; subst.
  - apply low_ret, I.
  - inversion H2 as [|? ? ? d1 d2 d3 D2 G1' G2' G3' H2']; subst. cbn [length kem_loop].
    pose proof (kem_turn_wp C V Hb Hct fr m1 _ _ _ r1 c1 c2 c3 T1 D1 G1 G2 G3) as ([m1' ok1] & t & E1 & (T1' & W1)).
    pose proof (kem_turn_wp C V Hb Hct fr m2 _ _ _ r2 d1 d2 d3 T2 D2 G1' G2' G3') as ([m2' ok2] & u & E2 & (T2' & W2)).
    assert (Ev : ok1 = ok2) by (destruct ok1, ok2; try reflexivity; tauto || (exfalso; intuition congruence)). subst ok2.
    assert (HL : low_verdict (kem_turn C fr (rb1 k) (rb1 (k + 1)) (rb1 (k + 2)) m1) (kem_turn C fr (rb2 k) (rb2 (k + 1)) (rb2 (k + 2)) m2)).
    { rewrite !kem_turn_halves.
      pose proof (first_low fr k m1 m2 r1 r2 c1 c2 d1 d2 Lm T1 T2 D1 D2 G1 G2 G1' G2' Ez) as L1.
      destruct (first_wp fr m1 _ _ r1 c1 c2 T1 D1 G1 G2) as (x & t1 & F1 & Lx & X1 & Z1). destruct (first_wp fr m2 _ _ r2 d1 d2 T2 D2 G1' G2') as (y & t2 & F2 & _ & X2 & Z2).
      apply (low_verdict_bind _ _ (fun a b => a = x /\ b = y /\ samelen (fst x) (fst y))).
      - intros a s1 b s2 Y1 Y2. destruct (L1 _ _ _ _ Y1 Y2) as (-> & Y). rewrite F1 in Y1. rewrite F2 in Y2. injection Y1 as <- _. injection Y2 as <- _. auto.
      - intros ? ? (-> & -> & Hs). assert (Es : snd x = snd y) by (destruct (snd x), (snd y); try reflexivity; exfalso; intuition congruence). rewrite Es.
        apply low_verdict_branch; [apply low_verdict_ret, Hs|]. assert (Tx : tarrays P (fst x) fr) by (unfold tarrays, region in *; rewrite Lx; exact T1). apply (second_low fr k _ _ r1 r2 c3 d3); assumption. }
    destruct (HL _ _ _ _ _ E1 E2) as (Et & Lm'). eapply low_bind with (R := fun a b => a = (m1', ok1) /\ b = (m2', ok1)).
    { rewrite E1, E2. intros a1 t1 a2 t2 X1 X2. injection X1 as <- <-. injection X2 as <- <-. auto. }
    intros ? ? (-> & ->). apply low_branch; [reflexivity| |intros _; apply low_ret, I]. intros _. apply IH; assumption.
Qed.
End Turn.

(** Whatever is drawn for the keys and the messages, any two runs of the self test in which the same
    positions are altered and the comparisons come out alike (as in all runs that pass) take the same branches and
    touch the same addresses: no value that the annotations mark as undefined decides a branch or an address.  With
    the portable AES, which looks up tables at bytes made from the seed of A, the bytes z from which that public seed
    is made must be the same too; the annotations mark these as undefined as well, and no other drawn byte matters. *)
Theorem C57_trace : forall C fr mem1 mem2 rb1 rb2 rs1 rs2,
  let P := cP C in
  valid P -> build_ok C -> ctBytes P <= 131072 ->
  zlen mem1 = zlen mem2 -> tarrays P mem1 fr ->
  (forall k l n, low (rb1 k l n) (rb2 k l n) (fun _ _ => True)) ->
  supplies P rb1 0 rs1 -> supplies P rb2 0 rs2 -> Forall2 (alike C) rs1 rs2 ->
  same_trace (kem_test C fr rb1 (zlen rs1) mem1) (kem_test C fr rb2 (zlen rs2) mem2).
Proof.
  intros C fr mem1 mem2 rb1 rb2 rs1 rs2 P V Hb Hct Lm T1 Ha S1 S2 HF.
  assert (T2 : tarrays P mem2 fr) by (unfold tarrays, region in *; rewrite <- Lm; exact T1).
  destruct (C39_verdict C fr mem1 rb1 rs1 V Hb Hct T1 S1) as (v1 & R1 & _). destruct (C39_verdict C fr mem2 rb2 rs2 V Hb Hct T2 S2) as (v2 & R2 & _).
  eapply same_trace_low; [|exact R1|exact R2]. unfold kem_test.
  replace (Z.to_nat (zlen rs1)) with (length rs1) by (unfold zlen; lia). replace (Z.to_nat (zlen rs2)) with (length rs2) by (unfold zlen; lia).
  apply (loop_low C V Hb Hct rb1 rb2 Ha fr 0 rs1 S1 rs2); assumption.
Qed.
Print Assumptions C57_trace.

(** In particular all runs that pass. *)
Theorem C57_passing : forall C fr mem1 mem2 rb1 rb2 rs1 rs2,
  let P := cP C in
  valid P -> build_ok C -> ctBytes P <= 131072 ->
  zlen mem1 = zlen mem2 -> tarrays P mem1 fr ->
  (forall k l n, low (rb1 k l n) (rb2 k l n) (fun _ _ => True)) ->
  supplies P rb1 0 rs1 -> supplies P rb2 0 rs2 -> map r_b rs1 = map r_b rs2 -> (table_aes C -> map r_z rs1 = map r_z rs2) ->
  returns (kem_test C fr rb1 (zlen rs1) mem1) true -> returns (kem_test C fr rb2 (zlen rs2) mem2) true ->
  same_trace (kem_test C fr rb1 (zlen rs1) mem1) (kem_test C fr rb2 (zlen rs2) mem2).
Proof.
  intros C fr mem1 mem2 rb1 rb2 rs1 rs2 P V Hb Hct Lm T1 Ha S1 S2 Em Ez R1 R2.
  assert (T2 : tarrays P mem2 fr) by (unfold tarrays, region in *; rewrite <- Lm; exact T1).
  apply C57_trace; try assumption.
  destruct (C39_verdict C fr mem1 rb1 rs1 V Hb Hct T1 S1) as (v1 & (t1 & E1) & W1). destruct (C39_verdict C fr mem2 rb2 rs2 V Hb Hct T2 S2) as (v2 & (t2 & E2) & W2).
  destruct R1 as (u1 & R1), R2 as (u2 & R2). rewrite R1 in E1. rewrite R2 in E2. injection E1 as <- _. injection E2 as <- _.
  pose proof (proj1 W1 eq_refl) as F1. pose proof (proj1 W2 eq_refl) as F2. clear - Em Ez F1 F2.
  revert rs2 Em Ez F2. induction F1 as [|r1 rs1 Q1 F1 IH]; intros [|r2 rs2] Em Ez F2; try discriminate Em; constructor.
  - inversion F2 as [|? ? Q2 _]; subst. cbn [map] in Em. injection Em as Eb _. split; [exact Eb|]. split; [intros H; specialize (Ez H); cbn [map] in Ez; injection Ez as Ez _; exact Ez|].
    assert (HH : forall r, passes (cP C) (cGen C) (cEn C) r -> honest C r).
    { intros r. unfold passes, honest. destruct (KeyGen (cP C) (cGen C) (r_s r) (r_se r) (r_z r)) as [PK SK]. destruct (Encaps (cP C) (cGen C) PK (r_mu r)) as [CT SS]. intros H; apply H. }
    exact (conj (conj (fun _ => HH _ Q2) (fun _ => HH _ Q1)) (conj (fun _ => Q2) (fun _ => Q1))).
  - inversion F2; subst. cbn [map] in Em. injection Em as _ Em. apply IH; [exact Em| |assumption]. intros H. specialize (Ez H). cbn [map] in Ez. injection Ez as _ Ez. exact Ez.
Qed.
Print Assumptions C57_passing.

(** The hypotheses of C57_trace are met by runs with different keys and messages: of any three runs of a
    round with small parameters, two have the same outcomes.  With AES instructions the seeds differ too; with
    the portable AES they are the same. *)
Definition fill (kz : Z * Z) : draws := let (k, z) := kz in
  {| r_s := zrep 16 k; r_se := zrep 16 (k + 1); r_z := zrep 16 z; r_mu := zrep 16 (k + 3); r_b := [1; 1; 0; 0] |}.
Definition filler (kz : Z * Z) : Z -> generator := fun i _ _ =>
  ret (if i =? 0 then r_s (fill kz) ++ r_se (fill kz) ++ r_z (fill kz) else if i =? 1 then r_mu (fill kz) else r_b (fill kz), 0).
Definition tframe_toy : tframe := {| t_pk := 0; t_sk := 1000; t_ct := 3000; t_sse := 4000; t_ssd := 4016 |}.
Definition Ctoy_portable : config := {| cP := toy_small; cEn := LE; cImpl := Reference; cGen := GenAES; cAes := AesC |}.
Lemma fill_drawn k z : 0 <= k < 200 -> 0 <= z < 256 -> drawn toy_small (fill (k, z)).
Proof.
  intros Hk Hz. assert (B : forall x, 0 <= x < 256 -> bytestr 16 (zrep 16 x)).
  { intros x Hx. split; [apply zlen_zrep; lia|]. repeat (constructor; [exact Hx|]). constructor. }
  unfold drawn. change (pCB toy_small) with 16. change (bytesMu toy_small) with 16. cbn [fill r_s r_se r_z r_mu r_b].
  split; [apply B; lia|]. split; [apply B; lia|]. split; [apply B; lia|]. split; [apply B; lia|]. split; [reflexivity|]. repeat constructor; lia.
Qed.
Lemma fill_supplies k z : 0 <= k < 200 -> 0 <= z < 256 -> supplies toy_small (filler (k, z)) 0 [fill (k, z)].
Proof. intros Hk Hz. apply supplies_cons with (c1 := 0) (c2 := 0) (c3 := 0); [apply fill_drawn; assumption| | | |constructor]; exists []; reflexivity. Qed.
Lemma fill_honest C k z : cP C = toy_small -> cGen C = GenAES -> 0 <= k < 200 -> 0 <= z < 256 -> honest C (fill (k, z)).
Proof.
  intros EP EG Hk Hz. destruct (fill_drawn k z Hk Hz) as ((L1 & _) & _ & _ & (L2 & B2) & _). destruct C27_met as (V & Hn).
  pose proof (C27_no_failure toy_small GenAES (r_s (fill (k, z))) (r_se (fill (k, z))) (r_z (fill (k, z))) (r_mu (fill (k, z))) V Hn L1 L2 B2) as H. unfold honest.
  rewrite EP, EG.
  destruct (KeyGen toy_small GenAES (r_s (fill (k, z))) (r_se (fill (k, z))) (r_z (fill (k, z)))) as [PK SK]. destruct (Encaps toy_small GenAES PK (r_mu (fill (k, z)))) as [CT SS]. apply H.
Qed.
Lemma passes_dec P g en r : {passes P g en r} + {~ passes P g en r}.
Proof.
  unfold passes. destruct (KeyGen P g (r_s r) (r_se r) (r_z r)) as [PK SK]. destruct (Encaps P g PK (r_mu r)) as [CT SS]. cbv zeta.
  destruct (list_eq_dec Z.eq_dec (Decaps P g SK CT) SS); [|right; tauto].
  destruct (list_eq_dec Z.eq_dec (Decaps P g SK (altered P en CT (r_b r))) (Hash P (altered P en CT (r_b r) ++ r_s r) (pCB P))); [left; tauto|right; tauto].
Qed.
Lemma two_of_three (Q : Z -> Prop) : (forall k, {Q k} + {~ Q k}) -> exists k1 k2, 0 <= k1 < 200 /\ 0 <= k2 < 200 /\ k1 <> k2 /\ (Q k1 <-> Q k2).
Proof.
  intros H. destruct (H 0) as [A|A], (H 10) as [B|B], (H 20) as [D|D].
  all: first [exists 0, 10; repeat (split; [lia|]); tauto|exists 0, 20; repeat (split; [lia|]); tauto|exists 10, 20; repeat (split; [lia|]); tauto].
Qed.
Lemma fill_hyps C (zf : Z -> Z) : cP C = toy_small -> cGen C = GenAES -> cEn C = LE -> build_ok C -> (forall k, 0 <= k < 200 -> 0 <= zf k < 256) ->
  (table_aes C -> forall k1 k2, zf k1 = zf k2) ->
  exists k1 k2, k1 <> k2 /\ valid (cP C) /\ build_ok C /\ ctBytes (cP C) <= 131072 /\
  tarrays (cP C) (uninit 5000) tframe_toy /\ (forall k l n, low (filler (k1, zf k1) k l n) (filler (k2, zf k2) k l n) (fun _ _ => True)) /\
  supplies (cP C) (filler (k1, zf k1)) 0 [fill (k1, zf k1)] /\ supplies (cP C) (filler (k2, zf k2)) 0 [fill (k2, zf k2)] /\ Forall2 (alike C) [fill (k1, zf k1)] [fill (k2, zf k2)] /\
  r_s (fill (k1, zf k1)) <> r_s (fill (k2, zf k2)).
Proof.
  intros EP EG EE Hb Hz Hc.
  pose proof (two_of_three (fun k => passes toy_small GenAES LE (fill (k, zf k))) (fun k => passes_dec toy_small GenAES LE (fill (k, zf k)))) as G. cbv beta in G.
  destruct G as (k1 & k2 & H1 & H2 & Hne & Hp). exists k1, k2. split; [exact Hne|]. rewrite EP. split; [exact (proj1 C27_met)|].
  split; [exact Hb|]. split; [vm_compute; congruence|]. split.
  { assert (L : zlen (uninit 5000) = 5000) by (apply zlen_uninit; lia). unfold tarrays, region. rewrite L. cbn [tframe_toy t_pk t_sk t_ct t_sse t_ssd].
    repeat (split; [vm_compute; split; congruence|]). split; [|split; reflexivity].
    repeat (apply FOP_cons; [repeat (apply Forall_cons; [left; vm_compute; congruence|]); apply Forall_nil|]). apply FOP_nil. }
  split; [intros k l n; apply low_ret, I|]. split; [apply fill_supplies; auto|]. split; [apply fill_supplies; auto|]. split.
  { constructor; [|constructor]. split; [reflexivity|]. split; [intros H; cbn [fill r_z]; rewrite (Hc H k1 k2); reflexivity|].
    split; [exact (conj (fun _ => fill_honest C k2 _ EP EG H2 (Hz _ H2)) (fun _ => fill_honest C k1 _ EP EG H1 (Hz _ H1)))|]. rewrite EP, EG, EE. exact Hp. }
  intros E. apply (f_equal (fun l => znth l 0)) in E. cbn [fill r_s] in E. rewrite !znth_zrep in E by lia. lia.
Qed.
Example C57_hyps : ~ table_aes Ctoy /\ exists k1 k2, k1 <> k2 /\ valid (cP Ctoy) /\ build_ok Ctoy /\ ctBytes (cP Ctoy) <= 131072 /\
  tarrays (cP Ctoy) (uninit 5000) tframe_toy /\ (forall k l n, low (filler (k1, k1 + 2) k l n) (filler (k2, k2 + 2) k l n) (fun _ _ => True)) /\
  supplies (cP Ctoy) (filler (k1, k1 + 2)) 0 [fill (k1, k1 + 2)] /\ supplies (cP Ctoy) (filler (k2, k2 + 2)) 0 [fill (k2, k2 + 2)] /\
  Forall2 (alike Ctoy) [fill (k1, k1 + 2)] [fill (k2, k2 + 2)] /\ r_s (fill (k1, k1 + 2)) <> r_s (fill (k2, k2 + 2)).
Proof.
  split; [intros (_ & H); discriminate H|]. apply (fill_hyps Ctoy (fun k => k + 2)); try reflexivity; [intros H; exfalso; apply H; reflexivity|intros k Hk; lia|intros (_ & H); discriminate H].
Qed.
Example C57_portable_hyps : table_aes Ctoy_portable /\ exists k1 k2, k1 <> k2 /\ valid (cP Ctoy_portable) /\ build_ok Ctoy_portable /\ ctBytes (cP Ctoy_portable) <= 131072 /\
  tarrays (cP Ctoy_portable) (uninit 5000) tframe_toy /\ (forall k l n, low (filler (k1, 7) k l n) (filler (k2, 7) k l n) (fun _ _ => True)) /\
  supplies (cP Ctoy_portable) (filler (k1, 7)) 0 [fill (k1, 7)] /\ supplies (cP Ctoy_portable) (filler (k2, 7)) 0 [fill (k2, 7)] /\
  Forall2 (alike Ctoy_portable) [fill (k1, 7)] [fill (k2, 7)] /\ r_s (fill (k1, 7)) <> r_s (fill (k2, 7)).
Proof.
  split; [split; reflexivity|]. apply (fill_hyps Ctoy_portable (fun _ => 7)); try reflexivity; [intros H; exfalso; apply H; reflexivity|intros k Hk; lia].
Qed.
(** The trace does record where the test itself looks: other positions, another trace. *)
Example C57_positions_seen : ~ same_trace (xor_word LE (zrep 9 0) 0 1) (xor_word LE (zrep 9 0) 0 2).
Proof. intros (v1 & v2 & t & E1 & E2). vm_compute in E1, E2. congruence. Qed.
