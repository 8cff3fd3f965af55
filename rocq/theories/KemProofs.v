(** Building blocks for the proofs about src/kem.c. *)
From Verif Require Import CSem Params Util UtilSpec UtilProofs Fips202 KeccakSpec ShakeProofs AesSpec
  MatrixSpec Macrify MatrixProofs MatrixProofs2 EncodeProofs PropMatrix FrodoSpec Kem.

(* ------------------------------------------------------------------ *)
(** ** Lists cut in pieces *)
Lemma ztab_app {A} n m (f : Z -> A) : 0 <= n -> 0 <= m -> ztab (n + m) f = ztab n f ++ ztab m (fun i => f (n + i)).
Proof.
  intros Hn Hm; unfold ztab, zseq. rewrite Z2Nat.inj_add by lia. rewrite seq_app, !map_app. f_equal.
  rewrite Nat.add_0_l. rewrite !map_map.
  assert (E : seq (Z.to_nat n) (Z.to_nat m) = map (fun i => (Z.to_nat n + i)%nat) (seq 0 (Z.to_nat m))).
  { generalize (Z.to_nat m) as k; intros k. generalize (Z.to_nat n) as a; intros a.
    clear. replace a with (a + 0)%nat at 1 by lia. generalize 0%nat as b; induction k; intros b; [reflexivity|].
    cbn [seq map]. f_equal. rewrite <- (IHk (Datatypes.S b)). f_equal; lia. }
  rewrite E, map_map. apply map_ext; intros i. f_equal; lia.
Qed.
Lemma zslice_mid {A} (a b c : list A) o n : o = zlen a -> n = zlen b -> zslice (a ++ b ++ c) o n = b.
Proof.
  intros -> ->; unfold zslice, zlen; rewrite !Nat2Z.id.
  rewrite skipn_app, skipn_all, Nat.sub_diag; cbn [app skipn].
  rewrite firstn_app, firstn_all, Nat.sub_diag; cbn. apply app_nil_r.
Qed.
Lemma zsplice_mid {A} (a b c x : list A) o : o = zlen a -> zlen x = zlen b -> zsplice (a ++ b ++ c) o x = a ++ x ++ c.
Proof.
  intros -> Hx; unfold zsplice, zlen in *; rewrite Nat2Z.id. rewrite firstn_app, firstn_all, Nat.sub_diag; cbn [firstn].
  rewrite app_nil_r. do 2 f_equal. rewrite skipn_app.
  rewrite skipn_all2 by lia. cbn [app]. replace (length a + length x - length a)%nat with (length b) by lia.
  rewrite skipn_app, skipn_all, Nat.sub_diag. reflexivity.
Qed.
Lemma zsplice_adj (m x y : list Z) o : 0 <= o -> o + zlen x + zlen y <= zlen m ->
  zsplice (zsplice m o x) (o + zlen x) y = zsplice m o (x ++ y).
Proof.
  intros Ho Hl; pose proof (zlen_nonneg x); pose proof (zlen_nonneg y).
  assert (zlen (zsplice m o x) = zlen m) by (rewrite zlen_zsplice; lia).
  apply list_ext; [rewrite !zlen_zsplice; rewrite ?zlen_app; lia|].
  rewrite zlen_zsplice by lia. intros i Hi.
  rewrite !znth_zsplice by (rewrite ?zlen_app; lia). rewrite zlen_app, znth_app.
  destruct (Z.leb_spec (o + zlen x) i), (Z.leb_spec o i), (Z.ltb_spec i (o + zlen x + zlen y)),
    (Z.ltb_spec i (o + (zlen x + zlen y))), (Z.ltb_spec i (o + zlen x)), (Z.ltb_spec (i - o) (zlen x));
    try lia; cbn [andb]; try reflexivity. f_equal; lia.
Qed.
Lemma zslice_split {A} (l : list A) o n m : 0 <= o -> 0 <= n -> 0 <= m ->
  zslice l o (n + m) = zslice l o n ++ zslice l (o + n) m.
Proof.
  intros; unfold zslice. rewrite !Z2Nat.inj_add by lia.
  rewrite <- (skipn_skipn_add (Z.to_nat o) (Z.to_nat n)) by idtac.
  generalize (skipn (Z.to_nat o) l); clear. intros l. revert l. induction (Z.to_nat n); intros l; [reflexivity|].
  destruct l; cbn; [destruct (Z.to_nat m); reflexivity|]. now rewrite IHn0.
Qed.

Lemma sub_mid l a b c o n (Q : list Z -> Prop) : l = a ++ b ++ c -> o = zlen a -> n = zlen b -> Q b -> wp (sub l o n) Q.
Proof.
  intros -> -> -> HQ. pose proof (zlen_nonneg a); pose proof (zlen_nonneg b); pose proof (zlen_nonneg c).
  apply wp_sub; [lia|lia|rewrite !zlen_app; lia|]. rewrite zslice_mid by reflexivity. exact HQ.
Qed.
Lemma put_mid l a b c o x (Q : list Z -> Prop) : l = a ++ b ++ c -> o = zlen a -> zlen x = zlen b ->
  Q (a ++ x ++ c) -> wp (put l o x) Q.
Proof.
  intros -> -> E HQ. pose proof (zlen_nonneg a); pose proof (zlen_nonneg b); pose proof (zlen_nonneg c).
  apply wp_put; [lia|rewrite !zlen_app; lia|]. rewrite (zsplice_mid _ b) by auto. exact HQ.
Qed.

(* ------------------------------------------------------------------ *)
(** ** Residues *)
Definition w16 (x : Z) : Z := x mod 65536.
Lemma w16_map_ok l : u16s_ok (map w16 l).
Proof. apply inrange_intro; rewrite zlen_map; intros i Hi; rewrite znth_map by exact Hi. apply Z.mod_pos_bound; lia. Qed.
Lemma w16_cong D x : 0 <= D <= 16 -> w16 x mod 2 ^ D = x mod 2 ^ D.
Proof. apply mod16_mod. Qed.
Lemma znth_w16_cong D l i : 0 <= D <= 16 -> znth (map w16 l) i mod 2 ^ D = znth l i mod 2 ^ D.
Proof.
  intros HD. destruct (Z.lt_ge_cases i 0); [rewrite !znth_neg by lia; reflexivity|].
  destruct (Z.lt_ge_cases i (zlen l)); [rewrite znth_map by lia; apply w16_cong; exact HD|].
  rewrite !znth_out by (rewrite ?zlen_map; lia); reflexivity.
Qed.
Lemma mul_cong q a b a' b' : a mod q = a' mod q -> b mod q = b' mod q -> (a * b) mod q = (a' * b') mod q.
Proof. intros Ha Hb. rewrite (Zmult_mod a b), (Zmult_mod a' b'), Ha, Hb. reflexivity. Qed.
Lemma add_cong q a b a' b' : a mod q = a' mod q -> b mod q = b' mod q -> (a + b) mod q = (a' + b') mod q.
Proof. intros Ha Hb. rewrite (Zplus_mod a b), (Zplus_mod a' b'), Ha, Hb. reflexivity. Qed.
Lemma sub_cong q a b a' b' : a mod q = a' mod q -> b mod q = b' mod q -> (a - b) mod q = (a' - b') mod q.
Proof. intros Ha Hb. rewrite (Zminus_mod a b), (Zminus_mod a' b'), Ha, Hb. reflexivity. Qed.
Lemma pow_nz D : 0 <= D -> 2 ^ D <> 0.
Proof. intros; pose proof (Z.pow_pos_nonneg 2 D); lia. Qed.

Section Cong.
Variables (D n : Z).
Hypothesis HD : 0 <= D <= 16.
Let q := 2 ^ D.
Lemma AS_w16 A St E : map (fun x => x mod q) (AS_plus_E 65536 n A (map w16 St) (map w16 E)) = AS_plus_E q n A St E.
Proof.
  unfold AS_plus_E; rewrite map_ztab; apply ztab_ext; intros t Ht. unfold q; rewrite mod16_mod by exact HD.
  unfold AS_E; apply add_cong; [apply znth_w16_cong; exact HD|].
  apply zsum_mod_ext; [apply pow_nz; lia|]. intros j Hj; apply mul_cong; [reflexivity|apply znth_w16_cong; exact HD].
Qed.
Lemma SA_w16 A St E : map (fun x => x mod q) (SA_plus_E 65536 n A (map w16 St) (map w16 E)) = SA_plus_E q n A St E.
Proof.
  unfold SA_plus_E; rewrite map_ztab; apply ztab_ext; intros t Ht. unfold q; rewrite mod16_mod by exact HD.
  unfold SA_E; apply add_cong; [apply znth_w16_cong; exact HD|].
  apply zsum_mod_ext; [apply pow_nz; lia|]. intros j Hj; apply mul_cong; [apply znth_w16_cong; exact HD|reflexivity].
Qed.
Lemma SB_w16 St B E : SB_E_spec q n (map w16 St) B (map w16 E) = SB_E_spec q n St B E.
Proof.
  unfold SB_E_spec; apply ztab_ext; intros t Ht. unfold q; apply add_cong; [apply znth_w16_cong; exact HD|].
  apply zsum_mod_ext; [apply pow_nz; lia|]. intros j Hj; apply mul_cong; [apply znth_w16_cong; exact HD|reflexivity].
Qed.
Lemma BS_cong b s s' : (forall i, 0 <= i < 8 * n -> znth s i mod q = znth s' i mod q) -> BS_spec q n b s = BS_spec q n b s'.
Proof.
  intros H; unfold BS_spec; apply ztab_ext; intros t Ht.
  apply zsum_mod_ext; [apply pow_nz; lia|]. intros j Hj; apply mul_cong; [reflexivity|]. apply H.
  pose proof (Z.mod_pos_bound t 8 ltac:(lia)).
  split; [apply Z.add_nonneg_nonneg; [apply Z.mul_nonneg_nonneg; lia|lia]|].
  apply Z.lt_le_trans with (((t mod 8) + 1) * n); [lia|apply Z.mul_le_mono_nonneg_r; lia].
Qed.
End Cong.

(* ------------------------------------------------------------------ *)
(** ** Steps of kem.c *)
(** The words of a hash, in the host's order after the conversion loop. *)
Definition hwords (h : list Z) (from cnt : Z) : list Z := ztab cnt (fun i => word16 h (from + i)).
Lemma hwords_ok h from cnt : bytes_ok h -> u16s_ok (hwords h from cnt).
Proof.
  intros Hb; apply inrange_ztab; intros i Hi; unfold word16.
  pose proof (inrange_znth_all 256 h (2 * (from + i)) ltac:(lia) Hb).
  pose proof (inrange_znth_all 256 h (2 * (from + i) + 1) ltac:(lia) Hb). lia.
Qed.
Lemma zlen_hwords h from cnt : 0 <= cnt -> zlen (hwords h from cnt) = cnt.
Proof. apply zlen_ztab. Qed.
Lemma hwords_split h from a b : 0 <= a -> 0 <= b -> hwords h from (a + b) = hwords h from a ++ hwords h (from + a) b.
Proof.
  intros; unfold hwords; rewrite ztab_app by auto. f_equal. apply ztab_ext; intros; f_equal; lia.
Qed.
Lemma sample_hwords P h from cnt :
  map (fun x => sample_spec (pCDF P) x mod 65536) (hwords h from cnt) = map w16 (SampleMatrix P h from cnt).
Proof. unfold hwords, SampleMatrix; rewrite !map_ztab; reflexivity. Qed.
Lemma zlen_Sample P h from cnt : 0 <= cnt -> zlen (SampleMatrix P h from cnt) = cnt.
Proof. apply zlen_ztab. Qed.
Lemma bytes_zero en (l : list Z) n : zlen l = n -> words_of_bytes en (zrep (2 * n) 0) = zrep n 0.
Proof.
  intros L; pose proof (zlen_nonneg l).
  apply list_ext; [rewrite zlen_words, !zlen_zrep by lia; dlia|].
  rewrite zlen_words, zlen_zrep by lia; intros i Hi. rewrite znth_words by (rewrite zlen_zrep; lia).
  rewrite !znth_zrep0. destruct en; reflexivity.
Qed.
Lemma clear_words_mid en l a b c o n (Q : list Z -> Prop) : l = a ++ b ++ c -> o = zlen a -> n = zlen b ->
  Q (a ++ zrep n 0 ++ c) -> wp (clear_words en l o n) Q.
Proof.
  intros E Eo En HQ; unfold clear_words. pose proof (zlen_nonneg b). apply wp_bind, (sub_mid l a b c); auto.
  apply wp_bind; eapply wp_mono; [apply clear_bytes_all; rewrite zlen_bytes; lia|]. intros x ->.
  rewrite (bytes_zero en b) by auto. apply (put_mid l a b c); auto. rewrite zlen_zrep; lia.
Qed.
Lemma clear_mid l a b c o n (Q : list Z -> Prop) : l = a ++ b ++ c -> o = zlen a -> n = zlen b ->
  Q (a ++ zrep n 0 ++ c) -> wp (clear_at l o n) Q.
Proof.
  intros E Eo En HQ; unfold clear_at. pose proof (zlen_nonneg b). apply wp_bind, (sub_mid l a b c); auto.
  apply wp_bind; eapply wp_mono; [apply clear_bytes_all; auto|]. intros x ->.
  apply (put_mid l a b c); auto. rewrite zlen_zrep; lia.
Qed.
Lemma memcpy_mid l a b c src a' b' c' o so n (Q : list Z -> Prop) : l = a ++ b ++ c -> src = a' ++ b' ++ c' ->
  o = zlen a -> so = zlen a' -> n = zlen b -> n = zlen b' -> Q (a ++ b' ++ c) -> wp (memcpy l o src so n) Q.
Proof.
  intros E E' Eo Eso En En' HQ; unfold memcpy. apply wp_bind, (sub_mid src a' b' c'); auto.
  apply (put_mid l a b c); auto. congruence.
Qed.

Section Steps.
Variable C : config.
Local Notation P := (cP C).
Hypothesis V : valid P.
Local Notation N8 := (NN P).
Lemma N8_pos : 0 < N8. Proof. pose proof (v_N P V); unfold NN, NBAR; lia. Qed.
Lemma N8_eq : N8 = pN P * 8. Proof. reflexivity. Qed.

Lemma Hash_r M n : Hash P M n = SHAKE_r (pRate P) M n.
Proof.
  unfold Hash. destruct (v_rate P V) as [-> | ->]; cbn [Z.eqb Pos.eqb]; rewrite ?SHAKE128_r, ?SHAKE256_r; reflexivity.
Qed.
Lemma zlen_Hash M n : 0 <= n -> zlen (Hash P M n) = n.
Proof. intros; rewrite Hash_r; apply zlen_SHAKE_r; auto. Qed.
Lemma Hash_ok M n : bytes_ok (Hash P M n).
Proof. rewrite Hash_r; apply SHAKE_r_ok. Qed.
Lemma shake_hash out n inp m (Q : list Z -> Prop) : zlen out = n -> bytes_ok inp -> m = zlen inp ->
  Q (Hash P inp n) -> wp (shake (pRate P) out n inp m) Q.
Proof.
  intros L Hb -> HQ; eapply wp_mono; [apply shake_wp; [apply (v_rate P V)|exact L|exact Hb]|].
  intros o ->; rewrite <- Hash_r; exact HQ.
Qed.
Lemma shake_to_wp mem o n inp m (Q : list Z -> Prop) : 0 <= o -> 0 <= n -> o + n <= zlen mem -> bytes_ok inp -> m = zlen inp ->
  Q (zsplice mem o (Hash P inp n)) -> wp (shake_to P mem o n inp m) Q.
Proof.
  intros Ho Hn Hl Hb Hm HQ; unfold shake_to.
  apply wp_bind, wp_sub; auto. apply wp_bind, shake_hash; auto. { rewrite zlen_zslice; lia. }
  apply wp_put; rewrite ?zlen_Hash; auto.
Qed.
Lemma shake_to_mid mem a b c o n inp m (Q : list Z -> Prop) : mem = a ++ b ++ c -> o = zlen a -> n = zlen b ->
  bytes_ok inp -> m = zlen inp -> Q (a ++ Hash P inp n ++ c) -> wp (shake_to P mem o n inp m) Q.
Proof.
  intros -> -> -> Hb Hm HQ. pose proof (zlen_nonneg a); pose proof (zlen_nonneg b); pose proof (zlen_nonneg c).
  apply shake_to_wp; auto; [rewrite !zlen_app; lia|]. rewrite (zsplice_mid _ b); rewrite ?zlen_Hash; auto.
Qed.

Lemma hash_words_wp S n cnt inp m m2 {A} (f : list Z -> res A) (Q : A -> Prop) :
  0 <= cnt -> zlen S = cnt -> n = 2 * cnt -> bytes_ok inp -> m = zlen inp -> m2 = cnt ->
  wp (f (hwords (Hash P inp (2 * cnt)) 0 cnt)) Q ->
  wp (S <- shake_words C S n inp m ;; S <- le_to_host (cEn C) S m2 ;; f S) Q.
Proof.
  intros Hc L -> Hb Hm -> HQ. unfold shake_words.
  apply wp_bind. apply wp_bind, shake_hash; auto. { rewrite zlen_bytes; lia. } apply wp_ret.
  pose proof (Hash_ok inp (2 * cnt)) as Ho. pose proof (zlen_Hash inp (2 * cnt) ltac:(lia)) as Lo.
  apply wp_bind; eapply wp_mono; [apply le_to_host_wp; [rewrite zlen_words, Lo; dlia|apply inrange_words; exact Ho]|].
  intros W ->. 
  replace (map (LE_TO_UINT16 (cEn C)) (words_of_bytes (cEn C) (Hash P inp (2 * cnt)))) with (hwords (Hash P inp (2 * cnt)) 0 cnt); [exact HQ|].
  unfold hwords. apply list_ext; [rewrite zlen_map, zlen_words, Lo, zlen_ztab by lia; dlia|].
  rewrite zlen_ztab by lia. intros i Hi. rewrite znth_ztab by lia. rewrite znth_map by (rewrite zlen_words, Lo; dlia).
  rewrite word16_words; [f_equal|exact Ho|rewrite Lo; dlia].
Qed.
Lemma sample_mid l a b c o n (Q : list Z -> Prop) : l = a ++ b ++ c -> o = zlen a -> n = zlen b -> u16s_ok b ->
  Q (a ++ map (fun x => sample_spec (pCDF P) x mod 65536) b ++ c) -> wp (sample_at P l o n) Q.
Proof.
  intros E Eo En Hb HQ; unfold sample_at. apply wp_bind, (sub_mid l a b c); auto.
  apply wp_bind; eapply wp_mono; [apply frodo_sample_n_wp; auto; [apply (v_cdf P V)|apply (v_cdf_len P V)]|].
  intros x ->. apply (put_mid l a b c); auto. apply zlen_map.
Qed.


(** packing and unpacking *)
Lemma pack_mod out n B m : zlen out = n -> u16s_ok B -> m = zlen B ->
  wp (frodo_pack out n B m (pD P)) (fun r => r = pack_spec (pD P) n (map (fun x => x mod 2 ^ pD P) B)).
Proof.
  intros L U ->. pose proof (v_D P V). eapply wp_mono; [apply frodo_pack_wp; [lia|exact U|exact L]|].
  intros r ->. unfold pack_spec; rewrite repack_mod by lia. reflexivity.
Qed.
Lemma zlen_Pack M : zlen (Pack P M) = pD P * zlen M / 8.
Proof.
  pose proof (v_D P V); pose proof (zlen_nonneg M). apply zlen_repack. apply Z.div_pos; [apply Z.mul_nonneg_nonneg; lia|lia].
Qed.
Lemma Pack_ok M : bytes_ok (Pack P M). Proof. apply (repack_range _ 8); lia. Qed.
Lemma Unpack_ok cnt b : inrange (2 ^ pD P) (Unpack P cnt b).
Proof. pose proof (v_D P V). apply (repack_range 8); lia. Qed.
Lemma Unpack_ok16 cnt b : u16s_ok (Unpack P cnt b).
Proof. pose proof (v_D P V). eapply inrange_mono; [apply (pow2_le_16 (pD P)); lia|apply Unpack_ok]. Qed.
Lemma zlen_Unpack cnt b : 0 <= cnt -> zlen (Unpack P cnt b) = cnt.
Proof. apply zlen_repack. Qed.
Lemma unpack_wp out n b m : zlen out = n -> bytes_ok b -> m = zlen b ->
  wp (frodo_unpack out n b m (pD P)) (fun r => r = Unpack P n b).
Proof. intros L U ->. pose proof (v_D P V). apply frodo_unpack_wp; [lia|exact U|exact L]. Qed.

Lemma mask_q_wp B n : zlen B = n -> u16s_ok B -> wp (mask_q P B n) (fun r => r = map (fun x => x mod 2 ^ pD P) B).
Proof.
  intros L U; unfold mask_q; pose proof (zlen_nonneg B).
  apply (wp_for (fun i r => zlen r = n /\ forall t, 0 <= t < n -> znth r t = if t <? i then znth B t mod 2 ^ pD P else znth B t)).
  - lia.
  - split; [exact L|]. intros t Ht; destruct (Z.ltb_spec t 0); [lia|reflexivity].
  - intros i r Hi (Lr & E).
    assert (Ei : znth r i = znth B i) by (rewrite E, Z.ltb_irrefl by lia; reflexivity).
    assert (Hb : 0 <= znth B i < 65536) by (apply inrange_znth; [exact U|lia]).
    apply wp_bind, wp_rd; [lia|lia|]. apply (mask_wp2 P V). rewrite (land_u16 P V), Ei.
    apply wp_wr; [lia|]. split; [rewrite zlen_zset; exact Lr|]. intros t Ht; rewrite znth_zset by lia.
    destruct (Z.eqb_spec i t) as [->|].
    + destruct (Z.ltb_spec t (t + 1)); [reflexivity|lia].
    + rewrite E by lia. destruct (Z.ltb_spec t i), (Z.ltb_spec t (i + 1)); try lia; reflexivity.
  - intros r (Lr & E); apply list_ext; [rewrite zlen_map; lia|]. intros t Ht; rewrite E, znth_map by lia.
    destruct (Z.ltb_spec t n); [reflexivity|lia].
Qed.
Lemma host_to_le_wp S a b n : S = a ++ b -> n = zlen a -> u16s_ok a -> wp (host_to_le (cEn C) S n) (fun r => r = map (UINT16_TO_LE (cEn C)) a ++ b).
Proof.
  intros -> -> U; unfold host_to_le; pose proof (zlen_nonneg a).
  apply (wp_for (fun i r => zlen r = zlen a + zlen b /\ forall t, 0 <= t < zlen a + zlen b ->
    znth r t = if t <? i then UINT16_TO_LE (cEn C) (znth (a ++ b) t) else znth (a ++ b) t)).
  - lia.
  - split; [apply zlen_app|]. intros t Ht; destruct (Z.ltb_spec t 0); [lia|reflexivity].
  - intros i r Hi (Lr & E). pose proof (zlen_nonneg b).
    assert (Ei : znth r i = znth a i) by (rewrite E, Z.ltb_irrefl, znth_app1 by lia; reflexivity).
    assert (Hb : 0 <= znth a i < 65536) by (apply inrange_znth; [exact U|lia]).
    apply wp_bind, wp_rd; [lia|lia|]. rewrite Ei.
    apply wp_wr; [lia|]. split; [rewrite zlen_zset; exact Lr|]. intros t Ht; rewrite znth_zset by lia.
    destruct (Z.eqb_spec i t) as [->|].
    + destruct (Z.ltb_spec t (t + 1)); [|lia]. rewrite znth_app1 by lia.
      pose proof (UINT16_TO_LE_range (cEn C) (znth a t) Hb). apply Z.mod_small; lia.
    + rewrite E by lia. destruct (Z.ltb_spec t i), (Z.ltb_spec t (i + 1)); try lia; reflexivity.
  - intros r (Lr & E); apply list_ext; [rewrite zlen_app, zlen_map; lia|]. intros t Ht; rewrite E by lia.
    rewrite !znth_app, zlen_map.
    destruct (Z.ltb_spec t (zlen a)); [rewrite znth_map by lia|]; reflexivity.
Qed.
Lemma as_wp out s e seedA : mat_args P out s e seedA ->
  wp (as_plus_e C out s e seedA) (fun o => o = AS_plus_E 65536 (pN P) (A_spec (cGen C) (pN P) seedA) s e).
Proof. intros M; apply returns_wp, C26_as_plus_e; auto. Qed.
End Steps.
