(** Properties C21 and C43 on Windows: what becomes of a process when BCryptGenRandom fails. *)
From Verif Require Import CSem Params Util UtilSpec UtilProofs Fips202 KeccakSpec KeccakProofs ShakeProofs FrodoSpec Random PropMatrix
  Kem KemProofs KemWp FrodoFacts PropKem PropKem2 PropRandom Process PropProcess WinProcess.

(** ** Programs that either have read an uninitialised cell or satisfy Q *)
Definition wpe {A} (m : res A) (Q : A -> Prop) : Prop := m = Err UB_uninit \/ wp m Q.
Lemma wpe_bind {A B} (m : res A) (f : A -> res B) Q : wpe m (fun a => wpe (f a) Q) -> wpe (bind m f) Q.
Proof.
  intros [->|(a & t & -> & [E|(b & t' & E & H)])]; [left; reflexivity| |]; cbn [bind]; rewrite E; [left; reflexivity|].
  right. exists b, (t ++ t'). auto.
Qed.
Lemma wpe_wp {A} (m : res A) Q : wp m Q -> wpe m Q. Proof. right; assumption. Qed.
Lemma wpe_mono {A} (m : res A) (P Q : A -> Prop) : wpe m P -> (forall a, P a -> Q a) -> wpe m Q.
Proof. intros [->|H] HI; [left; reflexivity|right; eapply wp_mono; eauto]. Qed.
Lemma wpe_rd l i (Q : Z -> Prop) : 0 <= i < zlen l -> (0 <= znth l i -> Q (znth l i)) -> wpe (rd l i) Q.
Proof.
  intros Hi HQ. destruct (Z.lt_ge_cases (znth l i) 0) as [H|H]; [left|right; apply wp_rd; auto].
  unfold rd. destruct (Z.leb_spec 0 i); [|lia]. destruct (Z.ltb_spec i (zlen l)); [|lia]. cbn [andb]. cbv zeta.
  destruct (Z.ltb_spec (znth l i) 0); [reflexivity|lia].
Qed.
Lemma wpe_for {T} (I : Z -> T -> Prop) lo hi body (s : T) (Q : T -> Prop) : lo <= hi -> I lo s ->
  (forall i s', lo <= i < hi -> I i s' -> wpe (body i s') (I (i + 1))) -> (forall s', I hi s' -> Q s') -> wpe (for_ lo hi body s) Q.
Proof.
  intros Hle H0 Hs Hq. unfold for_. apply wpe_bind, wpe_wp, wp_emit.
  assert (K : forall n i s, I i s -> lo <= i -> i + Z.of_nat n = hi -> wpe (for_n n i 1 body s) Q).
  { induction n as [|n IH]; intros i t Ht Hi E; cbn [for_n].
    - apply wpe_wp, wp_ret, Hq. replace hi with i by lia. exact Ht.
    - apply wpe_bind. eapply wpe_mono; [apply Hs; [lia|exact Ht]|]. intros t' Ht'. apply IH; [exact Ht'|lia|lia]. }
  apply K; [exact H0|lia|lia].
Qed.
Lemma wpe_loop {T} (I : T -> Prop) (mu : T -> nat) (body : T -> res (T * bool)) (Q : T -> Prop) : forall fuel s,
  I s -> (mu s < fuel)%nat ->
  (forall s, I s -> wpe (body s) (fun r => if snd r then I (fst r) /\ (mu (fst r) < mu s)%nat else Q (fst r))) ->
  wpe (loop fuel body s) Q.
Proof.
  induction fuel as [|f IH]; intros s H0 Hmu Hs; [lia|]. cbn [loop]. apply wpe_bind. eapply wpe_mono; [apply (Hs s H0)|].
  intros [s' go] Hr. cbn [fst snd] in Hr. apply wpe_bind, wpe_wp, wp_emit. destruct go.
  - destruct Hr as (HI & Hl). apply IH; [exact HI|lia|exact Hs].
  - apply wpe_wp, wp_ret, Hr.
Qed.

(** ** SHAKE of a message with a byte that was never written *)
Section Unwritten.
Variables (m : list Z) (k : Z).
Hypothesis Hk : 0 <= k < zlen m.
Hypothesis Hm : forall i, 0 <= i < k -> 0 <= znth m i < 256.
Hypothesis Hu : znth m k < 0.
Lemma load64_reads o : 0 <= o <= k -> o + 8 <= zlen m -> wpe (load64 m o) (fun v => 0 <= v < M64 /\ o + 8 <= k).
Proof.
  intros Ho Hl. destruct (Z.lt_ge_cases k (o + 8)) as [H|H].
  - unfold load64. eapply wpe_for with (I := fun j _ => o + j <= k); [lia|lia| |].
    + intros j r Hj Hr. apply wpe_bind, wpe_rd; [lia|]. intros Hv.
      assert (o + j <> k) by (intros E; rewrite E in Hv; lia).
      apply wpe_bind, wpe_wp, wp_shl64; [lia|]. apply wpe_wp, wp_ret. lia.
    + intros r Hr. exfalso. lia.
  - apply wpe_wp. eapply wp_mono; [apply load64_wp; [lia|lia|]|].
    + intros i Hi. apply Hm. lia.
    + intros v (Hv & _). split; [exact Hv|lia].
Qed.
Lemma absorb_unwritten s r w p : r = 8 * w -> 1 <= w <= 25 -> zlen s = 25 -> u64s_ok s -> keccak_absorb s r m (zlen m) p = Err UB_uninit.
Proof.
  intros Er Hw Ls Os. enough (W : wpe (keccak_absorb s r m (zlen m) p) (fun _ => False)) by (destruct W as [E|(a & t & _ & [])]; exact E).
  unfold keccak_absorb. apply wpe_bind.
  eapply wpe_loop with (mu := fun '(_, mlen, _) => Z.to_nat (mlen / r))
    (I := fun '(s, mlen, moff) => zlen s = 25 /\ u64s_ok s /\ 0 <= moff <= k /\ mlen = zlen m - moff).
  - repeat split; auto; lia.
  - pose proof (Z.div_pos (zlen m) r ltac:(lia) ltac:(lia)). lia.
  - intros [[s1 mlen] moff] (L1 & O1 & Hoff & ->). unfold branch. apply wpe_bind, wpe_wp, wp_emit. destruct (Z.leb_spec r (zlen m - moff)).
    + apply wpe_bind.
      eapply wpe_mono with (P := fun s2 => zlen s2 = 25 /\ u64s_ok s2 /\ moff + r <= k).
      * replace (r / 8) with w by (subst r; rewrite Z.mul_comm, Z.div_mul by lia; reflexivity).
        eapply wpe_for with (I := fun i s2 => zlen s2 = 25 /\ u64s_ok s2 /\ moff + 8 * i <= k); [lia|repeat split; auto; lia| |].
        -- intros i s2 Hi (L2 & O2 & Hi2).
           assert (Hx : 0 <= znth s2 i < M64) by (apply (inrange_znth_all M64 s2 i); auto; reflexivity).
           apply wpe_bind, wpe_wp, wp_rd; [lia|lia|]. apply wpe_bind. eapply wpe_mono; [apply load64_reads; lia|].
           intros y (Hy & Hy2). apply wpe_wp, wp_wr; [lia|]. split; [now rewrite zlen_zset|]. split; [apply inrange_zset; auto; now apply xor64_range|lia].
        -- intros s2 (L2 & O2 & H2). repeat split; auto; lia.
      * intros s2 (L2 & O2 & H2). apply wpe_bind, wpe_wp. eapply wp_mono; [apply KeccakF1600_wp; auto|]. intros s3 ->.
        apply wpe_wp, wp_ret. cbn [fst snd]. destruct (lperm_ok s2 O2 L2) as (O3 & L3). split; [repeat split; auto; lia|].
        replace ((zlen m - moff) / r) with ((zlen m - moff - r) / r + 1) by (rewrite <- Z.div_add by lia; f_equal; lia).
        pose proof (Z.div_pos (zlen m - moff - r) r ltac:(lia) ltac:(lia)). lia.
    + apply wpe_wp, wp_ret. cbn [fst snd]. cbv beta iota zeta. apply wpe_bind.
      eapply wpe_for with (I := fun _ t => zlen t = 200); [lia|reflexivity| |].
      { intros i t Hi Lt. apply wpe_wp, wp_wr; [lia|]. now rewrite zlen_zset. }
      intros t Lt. apply wpe_bind.
      eapply wpe_for with (I := fun i t => zlen t = 200 /\ moff + i <= k); [lia|split; [exact Lt|lia]| |].
      { intros i t1 Hi (L2 & H2). apply wpe_bind, wpe_rd; [lia|]. intros Hv.
        assert (moff + i <> k) by (intros E; rewrite E in Hv; lia).
        apply wpe_wp, wp_wr; [lia|]. split; [now rewrite zlen_zset|lia]. }
      intros t1 (_ & H2). exfalso. lia.
Qed.
Lemma shake_unwritten r out n : r = 168 \/ r = 136 -> shake r out n m (zlen m) = Err UB_uninit.
Proof.
  intros Hr. unfold shake.
  assert (W : wp (if r =? 168 then ret (zrep 25 0) else for_ 0 25 (fun i s => wr s i 0) (uninit 25)) (fun s => s = zrep 25 0))
    by (destruct Hr as [-> | ->]; [apply wp_ret; reflexivity|vm_compute; eexists; eexists; split; reflexivity]).
  destruct W as (s & t & -> & ->). cbn [bind].
  rewrite (absorb_unwritten (zrep 25 0) r (r / 8) 31); [reflexivity| | |reflexivity|apply inrange_zrep0; reflexivity]; destruct Hr as [-> | ->]; first [reflexivity | split; discriminate].
Qed.
End Unwritten.

(** ** C21: encapsulation when the generator fails without writing *)
(** Like key generation (C21_keypair_unwritten): the hash reads the message, which is not there. *)
Theorem C21_enc_unwritten : forall C rc mem ct ss pk,
  let P := cP C in
  valid P -> region mem pk (pkBytes P) -> bytes_ok (zslice mem pk (pkBytes P)) ->
  crypto_kem_enc C (rand_untouched rc) mem ct ss pk = Err UB_uninit.
Proof.
  intros C rc mem ct ss pk P V (R1 & R2) B. unfold crypto_kem_enc. cbv zeta. fold P.
  destruct (sizes C V) as (HN & HD & HB & HCB & ENN & EbB & HDN & EbC & EbMu & Epk & Esk & Ect & Esp & EH). fold P in HN, HD, HB, HCB, ENN, EbB, HDN, EbC, EbMu, Epk, Esk, Ect, Esp, EH.
  rewrite EH.
  assert (L : zlen (zslice mem pk (pkBytes P)) = pkBytes P) by (apply zlen_zslice; lia).
  eapply bind_err; [apply wp_returns, wp_sub; [lia|lia|lia|reflexivity]|].
  eapply bind_err.
  { apply wp_returns. apply (shake_to_mid C V _ [] (uninit (pCB P)) (uninit (bytesMu P))); [symmetry; apply zrep_app; lia|reflexivity|rewrite zlen_uninit; lia|exact B|lia|reflexivity]. }
  cbn [app]. match goal with |- context [Hash ?x ?y ?z] => set (pkh := Hash x y z) end. assert (Lp : zlen pkh = pCB P) by (apply (zlen_Hash C V); lia).
  assert (Bp : bytes_ok pkh) by apply (Hash_ok C V).
  eapply bind_err; [apply wp_returns, (sub_mid _ pkh (uninit (bytesMu P)) []); [now rewrite app_nil_r|lia|rewrite zlen_uninit; lia|reflexivity]|].
  eapply bind_err; [exists []; reflexivity|]. cbv beta iota.
  assert (Lu : zlen (uninit (bytesMu P)) = bytesMu P) by (apply zlen_uninit; lia).
  eapply bind_err; [apply wp_returns, wp_put; [lia|rewrite zlen_app; lia|]|].
  { assert (E : zsplice (pkh ++ uninit (bytesMu P)) (pCB P) (uninit (bytesMu P)) = pkh ++ uninit (bytesMu P)).
    { apply list_ext; [rewrite zlen_zsplice; rewrite ?zlen_app; lia|]. rewrite zlen_zsplice by (rewrite ?zlen_app; lia). rewrite zlen_app. intros i Hi.
      rewrite znth_zsplice by (rewrite ?zlen_app; lia). destruct (Z.leb_spec (pCB P) i); destruct (Z.ltb_spec i (pCB P + zlen (uninit (bytesMu P)))); cbn [andb]; try reflexivity; try lia.
      rewrite znth_app2 by lia. rewrite Lp. reflexivity. }
    exact E. }
  unfold shake_to.
  assert (Lo : zlen (uninit (2 * pCB P)) = 2 * pCB P) by (apply zlen_uninit; lia).
  destruct (wp_sub (uninit (2 * pCB P)) 0 (pCB P + pCB P) (fun _ => True)) as (x & t & E & _); try lia; try exact I. rewrite E. cbn [bind].
  replace (pCB P + bytesMu P) with (zlen (pkh ++ uninit (bytesMu P))) by (rewrite zlen_app; lia).
  rewrite (shake_unwritten (pkh ++ uninit (bytesMu P)) (pCB P)); [reflexivity|rewrite zlen_app; lia| | |apply (v_rate _ V)].
  - intros i Hi. rewrite znth_app1 by lia. apply (inrange_znth_all 256 pkh i); [lia|exact Bp].
  - rewrite znth_app2 by lia. rewrite Lp, Z.sub_diag. unfold uninit. rewrite znth_zrep by lia. reflexivity.
Qed.
Print Assumptions C21_enc_unwritten.

(** On Windows: the message is used before it is set whenever BCryptGenRandom fails. *)
Theorem C21_enc_on_windows_failure : forall C st mem ct ss pk,
  let P := cP C in
  valid P -> region mem pk (pkBytes P) -> bytes_ok (zslice mem pk (pkBytes P)) ->
  crypto_kem_enc C (randombytes_win st false) mem ct ss pk = Err UB_uninit.
Proof. intros C st mem ct ss pk P V R B. exact (C21_enc_unwritten C 1 mem ct ss pk V R B). Qed.
Print Assumptions C21_enc_on_windows_failure.

(** ** C43: any history of calls of a process on Windows *)
(** Does the action ask for random bytes? *)
Definition asks (a : action) : bool := match a with AKeyPair _ _ | AEnc _ _ _ => true | _ => false end.
(** The requests of a list of actions, the first of which is request number r, are all served. *)
Fixpoint served (ok : nat -> bool) (r : nat) (l : list action) : bool :=
  match l with [] => true | a :: l => if asks a then ok r && served ok (S r) l else served ok r l end.
(** The number of requests. *)
Fixpoint asked (l : list action) : nat := match l with [] => O | a :: l => if asks a then S (asked l) else asked l end.

Section One.
Variables (C : config) (st : Z -> Z) (ok : nat -> bool).
Let P := cP C.
Hypothesis V : valid P.
Hypothesis Hb : build_ok C.
Hypothesis Hsize : 2 * pCB P + 16 < 2 ^ 32.
Hypothesis Hst : forall i, 0 <= st i < 256.
Lemma win_delivers p n : 0 <= n < 2 ^ 32 -> ok (w_reqs p) = true -> delivers (win_random st ok p) n (segment st (w_pos p) n) 0.
Proof.
  intros Hn E. unfold delivers, win_random. rewrite E.
  destruct (C20_windows (fun i => st (w_pos p + i)) (uninit n) n Hn ltac:(apply zlen_uninit; lia)) as (R & _).
  replace (segment st (w_pos p) n) with (from_stream (fun i => st (w_pos p + i)) 0 n); [exact R|].
  unfold from_stream, segment. apply list_ext; [rewrite !zlen_ztab; lia|]. rewrite zlen_ztab by lia. intros i Hi. rewrite !znth_ztab by lia. f_equal; lia.
Qed.
Lemma win_act_cases a p : fits P (w_mem p) a ->
  if asks a && negb (ok (w_reqs p)) then win_act C st ok a p = Err UB_uninit
  else returns (win_act C st ok a p)
    (0, mkw (effect P (cGen C) st a (w_pos p) (w_mem p)) (if asks a then S (w_reqs p) else w_reqs p) (w_pos p + takes P a)).
Proof.
  intros Hf. destruct (sizes C V) as (HN & HD & HB & HCB & ENN & EbB & HDN & EbC & EbMu & Epk & Esk & Ect & Esp & EH). fold P in HN, HD, HB, HCB, ENN, EbB, HDN, EbC, EbMu, Epk, Esk, Ect, Esp, EH.
  pose proof (v_B8 P V) as HB8.
  destruct a as [pk sk|ct ss pk|ss ct sk|a x]; cbn [win_act asks fits effect takes] in *.
  - destruct Hf as (F1 & F2 & F3). fold P. unfold SEEDA, win_pos. destruct (ok (w_reqs p)) eqn:Eo; cbn [andb negb].
    + pose proof (C05_keypair C (win_random st ok p) 0 (w_mem p) pk sk (segment st (w_pos p) (pCB P)) (segment st (w_pos p + pCB P) (pCB P)) (segment st (w_pos p + 2 * pCB P) 16) V
        (segment_bytes st Hst _ (pCB P) ltac:(lia)) (segment_bytes st Hst _ (pCB P) ltac:(lia)) (segment_bytes st Hst _ 16 ltac:(lia))) as K. fold P in K.
      assert (Dl : delivers (win_random st ok p) (2 * pCB P + 16) (segment st (w_pos p) (pCB P) ++ segment st (w_pos p + pCB P) (pCB P) ++ segment st (w_pos p + 2 * pCB P) 16) 0).
      { pose proof (win_delivers p (2 * pCB P + 16) ltac:(lia) Eo) as D.
        replace (segment st (w_pos p) (2 * pCB P + 16)) with (segment st (w_pos p) (pCB P) ++ segment st (w_pos p + pCB P) (pCB P) ++ segment st (w_pos p + 2 * pCB P) 16) in D; [exact D|].
        symmetry. replace (2 * pCB P + 16) with (pCB P + (pCB P + 16)) by lia. rewrite !segment_app by lia. do 3 f_equal. lia. }
      specialize (K Dl F1 F2 F3). destruct (KeyGen P (cGen C) _ _ _) as [PK SK]. destruct K as (l & K).
      eapply bind_ok; [exact K|]. exists []. reflexivity.
    + unfold win_random. rewrite Eo. rewrite (C21_keypair_on_windows_failure C _ (w_mem p) pk sk V F1). reflexivity.
  - destruct Hf as (F1 & F2 & F3 & F4 & F5). fold P. unfold win_pos. destruct (ok (w_reqs p)) eqn:Eo; cbn [andb negb].
    + pose proof (C05_enc C (win_random st ok p) 0 (w_mem p) ct ss pk (zslice (w_mem p) pk (pkBytes P)) (segment st (w_pos p) (bytesMu P)) V Hb
        (segment_bytes st Hst _ (bytesMu P) ltac:(lia))) as K. fold P in K.
      specialize (K (win_delivers p (bytesMu P) ltac:(lia) Eo) (conj F3 eq_refl) F4 F1 F2 F5).
      destruct (Encaps P (cGen C) _ _) as [CT SS]. destruct K as (l & K).
      eapply bind_ok; [exact K|]. exists []. reflexivity.
    + unfold win_random. rewrite Eo. rewrite (C21_enc_on_windows_failure C _ (w_mem p) ct ss pk V F3 F4). reflexivity.
  - destruct Hf as (F1 & F2 & F3 & F4 & F5 & F6). cbn [andb].
    destruct (C05_dec C (w_mem p) ss ct sk (zslice (w_mem p) ct (ctBytes P)) (zslice (w_mem p) sk (skBytes P)) V Hb (conj F3 eq_refl) F5 F6 (conj F2 eq_refl) F4 F1) as (l & K).
    rewrite Z.add_0_r. eapply bind_ok; [exact K|]. exists []. reflexivity.
  - destruct Hf as (F1 & F2). cbn [andb]. rewrite Z.add_0_r. eapply bind_ok; [apply wp_returns, wp_put; [lia|lia|reflexivity]|exists []; reflexivity].
Qed.
End One.

(** Every sequence of calls of the API and of stores by the caller, for every parameter set and every build, whatever
    the answers of BCryptGenRandom.  If every request is served, all calls return 0, the memory is what FrodoKEM
    prescribes for the history and each byte that was delivered went to one call.  Otherwise the process has undefined
    behaviour (in the first call whose request fails): it uses bytes that were never set, and no call reports it. *)
Theorem C43_windows : forall C st ok l p,
  valid (cP C) -> build_ok C -> 2 * pCB (cP C) + 16 < 2 ^ 32 -> (forall i, 0 <= st i < 256) ->
  legal (cP C) (cGen C) st l (w_pos p) (w_mem p) ->
  if served ok (w_reqs p) l then
    returns (win_acts C st ok l p)
      (map (fun _ => 0) l, mkw (history (cP C) (cGen C) st l (w_pos p) (w_mem p)) (w_reqs p + asked l) (w_pos p + taken (cP C) l))
  else win_acts C st ok l p = Err UB_uninit.
Proof.
  intros C st ok l p V Hb Hs Hst. revert p. induction l as [|a l IH]; intros p Hl; cbn [win_acts legal history taken served asked map] in *.
  - exists []. destruct p as [m r q]. cbn [w_reqs w_pos w_mem]. rewrite Nat.add_0_r, Z.add_0_r. reflexivity.
  - destruct Hl as (Hf & Hl). pose proof (win_act_cases C st ok V Hb Hs Hst a p Hf) as K.
    destruct (asks a && negb (ok (w_reqs p))) eqn:E.
    + apply andb_true_iff in E. destruct E as (-> & E). apply negb_true_iff in E. rewrite E. cbn [andb]. rewrite K. reflexivity.
    + pose proof (IH (mkw (effect (cP C) (cGen C) st a (w_pos p) (w_mem p)) (if asks a then S (w_reqs p) else w_reqs p) (w_pos p + takes (cP C) a)) Hl) as I.
      cbn [w_reqs w_pos w_mem] in I.
      replace (if asks a then ok (w_reqs p) && served ok (S (w_reqs p)) l else served ok (w_reqs p) l)
        with (served ok (if asks a then S (w_reqs p) else w_reqs p) l)
        by (destruct (asks a); [|reflexivity]; cbn [andb] in E; apply negb_false_iff in E; rewrite E; reflexivity).
      replace (w_reqs p + (if asks a then S (asked l) else asked l))%nat with ((if asks a then S (w_reqs p) else w_reqs p) + asked l)%nat by (destruct (asks a); lia).
      rewrite Z.add_assoc.
      destruct (served ok _ l).
      * eapply bind_ok; [exact K|]. cbv beta iota. eapply bind_ok; [exact I|]. exists []. reflexivity.
      * eapply bind_err; [exact K|]. cbv beta iota. rewrite I. reflexivity.
Qed.
Print Assumptions C43_windows.
(** Seen from the outside: whenever a history comes to its end, every request was served, and in no history does a
    call return an error code. *)
Theorem C43_windows_unreported : forall C st ok l p rcs p',
  valid (cP C) -> build_ok C -> 2 * pCB (cP C) + 16 < 2 ^ 32 -> (forall i, 0 <= st i < 256) ->
  legal (cP C) (cGen C) st l (w_pos p) (w_mem p) -> returns (win_acts C st ok l p) (rcs, p') ->
  served ok (w_reqs p) l = true /\ forall rc, In rc rcs -> rc = 0.
Proof.
  intros C st ok l p rcs p' V Hb Hs Hst Hl R. pose proof (C43_windows C st ok l p V Hb Hs Hst Hl) as K.
  destruct (served ok (w_reqs p) l).
  - split; [reflexivity|]. pose proof (returns_inj _ _ _ R K) as E. injection E as -> _. intros rc Hi. apply in_map_iff in Hi. destruct Hi as (_ & <- & _). reflexivity.
  - exfalso. destruct R as (t & R). rewrite R in K. discriminate.
Qed.
Print Assumptions C43_windows_unreported.
(** FrodoKEM-976 as in C43_hyps; in the second process the third request fails. *)
Definition wprocess976 : wprocess := mkw mem976 0 1000.
Example C43_windows_hyps :
  valid (cP C976) /\ build_ok C976 /\ 2 * pCB (cP C976) + 16 < 2 ^ 32 /\ (forall i, 0 <= stream976 i < 256) /\
  legal (cP C976) (cGen C976) stream976 actions976 (w_pos wprocess976) (w_mem wprocess976) /\
  served (fun _ => true) (w_reqs wprocess976) actions976 = true /\
  served (fun i => (i <? 2)%nat) (w_reqs wprocess976) actions976 = false.
Proof.
  destruct C43_hyps as (H1 & H2 & _ & H4 & _ & H6 & _).
  split; [exact H1|]. split; [exact H2|]. split; [vm_compute; reflexivity|]. split; [exact H4|]. split; [exact H6|]. split; reflexivity.
Qed.
