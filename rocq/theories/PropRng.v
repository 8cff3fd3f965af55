(** C24: the generator of the known-answer tests is CTR_DRBG with AES-256 (DrbgSpec.v). *)
From Verif Require Import CSem Params Aes AesSpec DrbgSpec Rng RngProofs FrodoSpec Kem KemWp PropMatrix PropKem.

(** The global DRBG_ctx: two arrays of 32 and 16 bytes, whatever their contents. *)
Definition ctx (d : drbg) : Prop := zlen (d_Key d) = 32 /\ zlen (d_V d) = 16.
(** DRBG_ctx holds the state (Key, V) of the standard. *)
Definition state_is (d : drbg) (st : list Z * Z) : Prop :=
  bytestr 32 (fst st) /\ 0 <= snd st < 2 ^ 128 /\ d_Key d = fst st /\ d_V d = be128 (snd st).
Lemma state_is_dreps d st : state_is d st <-> dreps d st.
Proof. unfold state_is, dreps, reps, bytestr, Vok. tauto. Qed.

(** [be128] is the 16-byte big-endian form of every 128-bit counter. *)
Theorem C24_be128 : forall v, 0 <= v < 2 ^ 128 -> bytestr 16 (be128 v) /\ int_of_be (be128 v) = v.
Proof.
  intros v Hv. split; [split; [apply zlen_be128|apply be128_ok]|].
  assert (H : forall a b, 0 <= a < 2 ^ 128 -> 0 <= b < 2 ^ 128 -> be128 a = be128 b -> a = b).
  { intros a b Ha Hb E.
    assert (Hk : forall k, 0 <= k <= 16 -> a mod 2 ^ (8 * k) = b mod 2 ^ (8 * k)).
    { intros k [Hk Hk2]. revert Hk2. pattern k. apply natlike_ind; [|clear k Hk; intros k Hk IH|exact Hk]; intros Hk2.
      - rewrite !Z.mod_1_r. reflexivity.
      - unfold Z.succ. rewrite !mod_p8_succ by lia. rewrite IH by lia.
        assert (En : znth (be128 a) (15 - k) = znth (be128 b) (15 - k)) by (rewrite E; reflexivity).
        unfold be128 in En. rewrite !znth_ztab in En by lia. replace (15 - (15 - k)) with k in En by lia. rewrite En. reflexivity. }
    specialize (Hk 16 ltac:(lia)). change (8 * 16) with 128 in Hk. rewrite !Z.mod_small in Hk by assumption. exact Hk. }
  apply H; [|exact Hv|apply be128_int; [apply be128_ok|apply zlen_be128]].
  pose proof (int_of_be_range (be128 v) (be128_ok v)) as R. rewrite zlen_be128 in R. exact R.
Qed.
Print Assumptions C24_be128.

(** The counter step, carries included. *)
Theorem C24_increment : forall v, 0 <= v < 2 ^ 128 -> returns (increment (be128 v)) (be128 ((v + 1) mod 2 ^ 128)).
Proof. intros v Hv. apply wp_returns. eapply wp_mono; [apply increment_wp, Hv|]. intros x ->; reflexivity. Qed.
Print Assumptions C24_increment.
Example C24_increment_carry :
  returns (increment (zrep 15 7 ++ [255])) (zrep 14 7 ++ [8; 0]) /\ returns (increment (zrep 16 255)) (zrep 16 0).
Proof. split; eexists; vm_compute; reflexivity. Qed.

(** Seeding, with and without a personalization string. *)
Theorem C24_init : forall im d seed pers, ctx d -> bytestr 48 seed -> (forall p, pers = Some p -> bytestr 48 p) ->
  exists d', returns (randombytes_init im d seed pers) d' /\ d_reseed d' = 1 /\
    state_is d' (Instantiate seed (match pers with Some p => p | None => zrep 48 0 end)).
Proof.
  intros im d seed pers (LK & LV) (Ls & Bs) Hp.
  pose proof (init_wp im d seed pers LK LV Ls Bs Hp) as H. apply wp_returns_ex in H.
  destruct H as (d' & R & S & E). exists d'. split; [exact R|]. split; [exact E|]. apply state_is_dreps, S.
Qed.
Print Assumptions C24_init.
(** One request: the n bytes of CTR_DRBG_Generate, and not a byte beyond them. *)
Theorem C24_generate : forall im d st buf n, state_is d st -> 0 <= n < 2 ^ 31 -> n <= zlen buf -> 0 <= d_reseed d < 2 ^ 31 - 1 ->
  exists d', returns (randombytes_drbg im d buf n) (stored buf 0 (fst (Generate st n)), 0, d') /\
    bytestr n (fst (Generate st n)) /\ state_is d' (snd (Generate st n)) /\ d_reseed d' = d_reseed d + 1.
Proof.
  intros im d st buf n S Hn Hb Hr. apply state_is_dreps in S. pose proof S as (EK & EV & LK & BK & Hv).
  pose proof (generate_wp im d st buf n S Hn Hb Hr) as H. apply wp_returns_ex in H.
  destruct H as ([[x' rc] d'] & R & -> & -> & S' & E). exists d'. split; [exact R|].
  destruct (Generate_ok st n LK BK ltac:(lia)) as (L & B & _). split; [split; assumption|]. split; [apply state_is_dreps, S'|exact E].
Qed.
Print Assumptions C24_generate.

(** A program that seeds the generator and makes the requests [bufs] in order, each a buffer
    to be filled completely. *)
Fixpoint requests (im : aesimpl) (d : drbg) (bufs : list (list Z)) : res (list (list Z)) :=
  match bufs with
  | [] => ret []
  | b :: bs =>
    '(out, _, d) <- randombytes_drbg im d b (zlen b) ;;
    outs <- requests im d bs ;;
    ret (out :: outs)
  end.
Definition session (im : aesimpl) (d : drbg) (seed : list Z) (pers : option (list Z)) (bufs : list (list Z)) :=
  d <- randombytes_init im d seed pers ;; requests im d bufs.
Lemma C24_requests : forall im bufs d st, state_is d st -> 0 <= d_reseed d -> d_reseed d + zlen bufs < 2 ^ 31 ->
  (forall b, In b bufs -> zlen b < 2 ^ 31) -> returns (requests im d bufs) (Requests st (map (@zlen Z) bufs)).
Proof.
  intros im. induction bufs as [|b bs IH]; intros d st S H0 H1 Hb; [exists []; reflexivity|].
  rewrite zlen_cons in H1. pose proof (zlen_nonneg bs). pose proof (zlen_nonneg b). pose proof (Hb b (or_introl eq_refl)).
  destruct (C24_generate im d st b (zlen b) S ltac:(lia) ltac:(lia) ltac:(lia)) as (d' & R & B & S' & E).
  cbn [requests map Requests]. destruct (Generate st (zlen b)) as [out st'] eqn:EG. cbn [fst snd] in *.
  specialize (IH d' st' S' ltac:(lia) ltac:(lia) (fun x Hx => Hb x (or_intror Hx))).
  apply wp_returns. apply wp_bind. eapply wp_mono; [apply returns_wp, R|]. intros x ->.
  apply wp_bind. eapply wp_mono; [apply returns_wp, IH|]. intros y ->. apply wp_ret. f_equal.
  unfold stored. destruct B as (Lo & _). apply zsplice_all. exact Lo.
Qed.
(** Every seed, every sequence of requests: the stream of the standard.  In particular the
    outputs depend only on the seed, the personalization string and the request lengths: not on
    the AES implementation, the previous context or the old contents of the buffers. *)
Theorem C24_sequence : forall im d seed pers bufs, ctx d -> bytestr 48 seed -> (forall p, pers = Some p -> bytestr 48 p) ->
  zlen bufs < 2 ^ 31 - 1 -> (forall b, In b bufs -> zlen b < 2 ^ 31) ->
  returns (session im d seed pers bufs)
    (Requests (Instantiate seed (match pers with Some p => p | None => zrep 48 0 end)) (map (@zlen Z) bufs)).
Proof.
  intros im d seed pers bufs Hc Hs Hp Hl Hb. destruct (C24_init im d seed pers Hc Hs Hp) as (d' & R & E & S).
  apply wp_returns. apply wp_bind. eapply wp_mono; [apply returns_wp, R|]. intros x ->.
  apply returns_wp. apply C24_requests; auto; lia.
Qed.
Print Assumptions C24_sequence.

(** A counter about to wrap in the middle of a request, with a length that is no multiple of 16. *)
Example C24_generate_hyps :
  let st := (ztab 32 (fun i => 3 * i), 2 ^ 128 - 1) in
  let d := {| d_Key := ztab 32 (fun i => 3 * i); d_V := zrep 16 255; d_reseed := 5 |} in
  state_is d st /\ 0 <= 33 < 2 ^ 31 /\ 33 <= zlen (uninit 40) /\ 0 <= d_reseed d < 2 ^ 31 - 1.
Proof.
  cbv zeta. assert (L : zlen (uninit 40) = 40) by reflexivity. rewrite L. unfold state_is; cbn [d_reseed d_Key d_V fst snd].
  repeat split; try lia; try (vm_compute; reflexivity). apply inrange_ztab. intros; lia.
Qed.
Example C24_sequence_hyps :
  let d := {| d_Key := uninit 32; d_V := uninit 16; d_reseed := 0 |} in
  let bufs := [uninit 48; []; zrep 16 9] in
  ctx d /\ bytestr 48 (ztab 48 (fun i => i)) /\ zlen bufs < 2 ^ 31 - 1 /\ (forall b, In b bufs -> zlen b < 2 ^ 31).
Proof.
  cbv zeta. split; [split; reflexivity|]. split; [split; [reflexivity|apply inrange_ztab; intros; lia]|].
  split; [rewrite !zlen_cons; change (zlen (@nil (list Z))) with 0; lia|].
  intros b [<-|[<-|[<-|[]]]]; [change (zlen (uninit 48)) with 48|change (zlen (@nil Z)) with 0|change (zlen (zrep 16 9)) with 16]; lia.
Qed.

(* ------------------------------------------------------------------ *)
(** ** The known-answer test sequence, tests/PQCtestKAT_kem*.c:61-113: seed, key pair,
    encapsulation.  What it writes is what the standard and the FrodoKEM specification
    determine from the seed. *)
Definition drbg_generator (im : aesimpl) (d : drbg) : generator := fun buf n =>
  '(buf, rc, _) <- randombytes_drbg im d buf n ;; ret (buf, rc).
Lemma drbg_delivers im d st n : state_is d st -> 0 <= n < 2 ^ 31 -> 0 <= d_reseed d < 2 ^ 31 - 1 ->
  delivers (drbg_generator im d) n (fst (Generate st n)) 0.
Proof.
  intros S Hn Hr. assert (L : zlen (uninit n) = n) by (apply zlen_uninit; lia).
  destruct (C24_generate im d st (uninit n) n S Hn ltac:(lia) Hr) as (d' & R & (Lo & _) & _).
  unfold delivers, drbg_generator. apply wp_returns. apply wp_bind. eapply wp_mono; [apply returns_wp, R|]. intros x ->. apply wp_ret.
  f_equal. unfold stored. apply zsplice_all. rewrite L. exact Lo.
Qed.
Theorem C24_kat_keypair : forall C im d seed d1 mem pk sk,
  let P := cP C in
  valid P -> 2 * pCB P + 16 < 2 ^ 31 -> ctx d -> bytestr 48 seed ->
  returns (randombytes_init im d seed None) d1 ->
  region mem pk (pkBytes P) -> region mem sk (skBytes P) -> disjoint pk (pkBytes P) sk (skBytes P) ->
  let r := fst (Generate (Instantiate seed (zrep 48 0)) (2 * pCB P + 16)) in
  let '(PK, SK) := KeyGen P (cGen C) (zslice r 0 (pCB P)) (zslice r (pCB P) (pCB P)) (zslice r (2 * pCB P) 16) in
  exists l, returns (crypto_kem_keypair C (drbg_generator im d1) mem pk sk) (stored (stored mem pk PK) sk SK, l, 0).
Proof.
  intros C im d seed d1 mem pk sk P V Hn Hc Hs R1 Rpk Rsk Hd r.
  destruct (C24_init im d seed None Hc Hs ltac:(intros ? E; discriminate E)) as (d' & R & E & S).
  pose proof (returns_inj _ _ _ R1 R) as ->. pose proof (v_CB _ V) as HCB. fold P in HCB.
  pose proof (drbg_delivers im d' _ (2 * pCB P + 16) S ltac:(lia) ltac:(lia)) as HD.
  pose proof S as ((L & B) & _).
  destruct (Generate_ok _ (2 * pCB P + 16) L B ltac:(lia)) as (Lr & Br & _). fold r in Lr, Br, HD.
  apply (C05_keypair C (drbg_generator im d') 0 mem pk sk); auto; fold P; try (split; [apply zlen_zslice; lia|apply inrange_zslice; exact Br]).
  fold P. replace (zslice r 0 (pCB P) ++ zslice r (pCB P) (pCB P) ++ zslice r (2 * pCB P) 16) with r; [exact HD|].
  apply list_ext; [rewrite !zlen_app, !zlen_zslice by lia; lia|]. intros i Hi.
  destruct (Z.lt_ge_cases i (pCB P)); [rewrite znth_app1, znth_zslice by (rewrite ?zlen_zslice; lia); f_equal; lia|].
  rewrite znth_app2 by (rewrite zlen_zslice; lia). rewrite zlen_zslice by lia.
  destruct (Z.lt_ge_cases i (2 * pCB P)); [rewrite znth_app1, znth_zslice by (rewrite ?zlen_zslice; lia); f_equal; lia|].
  rewrite znth_app2 by (rewrite zlen_zslice; lia). rewrite zlen_zslice, znth_zslice by lia. f_equal; lia.
Qed.
Print Assumptions C24_kat_keypair.
(** The encapsulation that follows draws the second request of the same session. *)
Theorem C24_kat_enc : forall C im d1 st buf d2 mem ct ss pk PK,
  let P := cP C in
  let n := 2 * pCB P + 16 in
  valid P -> build_ok C -> n < 2 ^ 31 -> bytesMu P < 2 ^ 31 -> state_is d1 st -> d_reseed d1 = 1 ->
  zlen buf = n ->
  (exists b, returns (randombytes_drbg im d1 buf n) (b, 0, d2)) ->
  holds mem pk (pkBytes P) PK -> bytes_ok PK ->
  region mem ct (ctBytes P) -> region mem ss (pCB P) -> disjoint ct (ctBytes P) pk (pkBytes P) ->
  let mu := fst (Generate (snd (Generate st n)) (bytesMu P)) in
  let '(CT, SS) := Encaps P (cGen C) PK mu in
  exists l, returns (crypto_kem_enc C (drbg_generator im d2) mem ct ss pk) (stored (stored mem ct CT) ss SS, l, 0).
Proof.
  intros C im d1 st buf d2 mem ct ss pk PK P n V Hb Hn Hmu S1 E1 Lb (b & R2) Hpk Bpk Hct Hss Hd mu.
  pose proof (v_CB _ V) as HCB. fold P in HCB.
  destruct (C24_generate im d1 st buf n S1 ltac:(unfold n in *; lia) ltac:(lia) ltac:(lia)) as (d' & R & _ & S & E).
  pose proof (returns_inj _ _ _ R2 R) as Ed. injection Ed as _ ->.
  assert (Hm : 0 <= bytesMu P). { pose proof (v_B _ V) as H. fold P in H. unfold bytesMu, NBAR. dlia. }
  pose proof (drbg_delivers im d' _ (bytesMu P) S ltac:(lia) ltac:(lia)) as HD. fold mu in HD.
  pose proof S as ((L & B) & _). destruct (Generate_ok _ (bytesMu P) L B Hm) as (Lr & Br & _). fold mu in Lr, Br.
  apply (C05_enc C (drbg_generator im d') 0 mem ct ss pk PK mu); auto. split; assumption.
Qed.
Print Assumptions C24_kat_enc.
