(** Property C54: calls of the API by several threads on a machine with relaxed memory (Relaxed.v). *)
From Verif Require Import CSem Params FrodoSpec Macrify PropMatrix Kem KemWp FrodoFacts PropKem Conc ConcProofs ConcKem ConcKemProofs PropConcKem Relaxed RelaxedProofs.

(** The calls of the threads have their arguments in place and none writes what another uses. *)
Definition ready (C : config) (mem : list Z) (cs : list (Z * call)) : Prop :=
  (forall i me c, nth_error cs i = Some (me, c) -> exists outs, prescribed C mem c outs) /\ apart C (map snd cs).
(** The threads start with the calls cs; they know what their starter knows. *)
Definition started (C : config) (len : Z) (ms : list message) (V : view) (cs : list (Z * call)) : rxworld Z :=
  mkrx len ms (map (fun mc => (program C (fst mc) (snd mc), V)) cs).
(** All threads have ended. *)
Definition over (w : rxworld Z) : Prop := forall i x, nth_error (rx_thr w) i = Some x -> exists r, ended (fst x) = Some r.

(** The memory that is shown is determined. *)
Lemma shows_unique ms V m m' : zlen m = zlen m' -> shows ms V m -> shows ms V m' -> m = m'.
Proof.
  intros L H H'. apply list_ext; [exact L|]. intros a Ha. destruct (H a Ha) as (E & _). destruct (H' a ltac:(lia)) as (E' & _). congruence.
Qed.

(** Where a thread may read and write; the hypotheses of [rx_interleave]. *)
Definition writing (C : config) (cs : list (Z * call)) (i : nat) (a : Z) : Prop := exists me c, nth_error cs i = Some (me, c) /\ within (writes C c) a.
Definition touching (C : config) (cs : list (Z * call)) (i : nat) (a : Z) : Prop := exists me c, nth_error cs i = Some (me, c) /\ within (writes C c ++ inputs C c) a.
Lemma ready_uses C mem cs : valid (cP C) -> build_ok C -> reentrant C -> ready C mem cs ->
  let Ps := map (fun mc => program C (fst mc) (snd mc)) cs in
  (forall i p, nth_error Ps i = Some p -> obeys (touching C cs i) (writing C cs i) p mem) /\
  (forall i a, writing C cs i a -> touching C cs i a) /\
  (forall i k a, i <> k -> writing C cs i a -> touching C cs k a -> False) /\
  forall ms V, started C (zlen mem) ms V cs = rstart Z Ps mem V ms.
Proof.
  intros Va Hb Hre (HP & HA) Ps. split; [|split; [|split]].
  - intros i p E. unfold Ps in E. rewrite nth_error_map in E. destruct (nth_error cs i) as [[me c]|] eqn:Ec; [|discriminate]. injection E as <-.
    destruct (HP i me c Ec) as (outs & Hp). destruct (call_alone C me mem c outs Va Hb Hre Hp) as (O & _).
    eapply obeys_mono; [| |exact O]; intros a Ha; exists me, c; auto.
  - intros i a (me & c & Ec & (o & n & Ho & Hn)). exists me, c. split; [exact Ec|]. exists o, n. split; [apply in_or_app; left; exact Ho|exact Hn].
  - intros i k a Hn (m1 & x & Ex & (o & n & I1 & H1)) (m2 & y & Ey & (o' & n' & I2 & H2)).
    assert (D : disjoint o n o' n').
    { apply (HA i k x y Hn); [rewrite nth_error_map, Ex; reflexivity|rewrite nth_error_map, Ey; reflexivity|exact I1|exact I2]. }
    unfold disjoint in D. lia.
  - intros ms V. unfold started, rstart, Ps. rewrite map_map. reflexivity.
Qed.
(** A call that has not ended can go on. *)
Lemma next_turn C mem ms V cs sched i p v : valid (cP C) -> build_ok C -> reentrant C -> shows ms V mem -> ready C mem cs ->
  let w := rx_exec sched (started C (zlen mem) ms V cs) in
  (i < length cs)%nat -> nth_error (rx_thr w) i = Some (p, v) -> ended p = None -> exists t, rx_turn (i, t) w <> w.
Proof.
  intros Va Hb Hre HV HR w Hi Ei He. destruct (ready_uses C mem cs Va Hb Hre HR) as (HO & HWR & HD & ST). set (Ps := map _ cs) in *. unfold w in *. rewrite ST in *.
  assert (HI : rinv Z Ps (touching C cs) (writing C cs) mem V ms (rx_exec sched (rstart Z Ps mem V ms))) by (apply rinv_exec; try assumption; apply rinv_init; assumption).
  destruct (nth_error Ps i) as [p0|] eqn:Ep; [|apply nth_error_None in Ep; unfold Ps in Ep; rewrite map_length in Ep; lia].
  eapply rx_next; eassumption.
Qed.

(** ** Any number of threads, each making one call, started by a thread for which the memory is mem;
    every schedule, every choice of the messages that the loads take and of the times of the stores;
    every parameter set and every build without the portable AES in use.
    - A call never faults, and if it has ended it has returned 0, and everybody who knows what its thread
      knew at its end (who has waited for it) reads the outputs that FrodoKEM prescribes, and nothing else,
      in its output buffers.
    - For one who knows what all threads know (who has waited for them) the memory is again one memory:
      with those outputs of the calls that have ended, and with the old bytes where no call writes.
    - The calls can always go on, so that all of them end. *)
Theorem C54_threads : forall C mem ms V cs,
  valid (cP C) -> build_ok C -> reentrant C -> shows ms V mem -> ready C mem cs ->
  forall sched, let w := rx_exec sched (started C (zlen mem) ms V cs) in
  (forall i me c, nth_error cs i = Some (me, c) -> exists p v, nth_error (rx_thr w) i = Some (p, v) /\
     forall r, ended p = Some r -> r = ret 0 /\
       forall outs, prescribed C mem c outs -> forall a x, In (a, x) outs -> forall k, 0 <= k < zlen x ->
         readable (rx_msgs w) v (a + k) (znth x k) /\
         forall U y, (forall b, v b <= U b) -> readable (rx_msgs w) U (a + k) y -> y = znth x k) /\
  (exists mem', zlen mem' = zlen mem /\ shows (rx_msgs w) (joined V (rx_thr w)) mem' /\
     (forall a, 0 <= a < zlen mem -> (forall i me c, nth_error cs i = Some (me, c) -> ~ within (writes C c) a) -> znth mem' a = znth mem a) /\
     forall i me c p v r, nth_error cs i = Some (me, c) -> nth_error (rx_thr w) i = Some (p, v) -> ended p = Some r ->
       forall outs, prescribed C mem c outs -> forall a x, In (a, x) outs -> holds mem' a (zlen x) x) /\
  exists more, over (rx_exec (sched ++ more) (started C (zlen mem) ms V cs)).
Proof.
  intros C mem ms V cs Va Hb Hre HV HRd sched. destruct (ready_uses C mem cs Va Hb Hre HRd) as (HO & HWR & HD & ST). pose proof HRd as (HP & _).
  set (Ps := map (fun mc => program C (fst mc) (snd mc)) cs) in *. set (W := writing C cs) in *. set (R := touching C cs) in *. rewrite ST.
  destruct (rx_interleave Z Ps R W mem V ms HO HWR HD HV sched) as (Th & (mem' & L' & S' & Out & Own) & Fin). cbv zeta in *.
  assert (EP : forall i me c, nth_error cs i = Some (me, c) -> nth_error Ps i = Some (program C me c)) by (intros i me c Ec; unfold Ps; rewrite nth_error_map, Ec; reflexivity).
  split; [|split; [|exact Fin]].
  - intros i me c Ec. destruct (Th i _ (EP i me c Ec)) as (p' & v & Ei & Res). exists p', v. split; [exact Ei|]. intros r Hr.
    destruct (Res r Hr) as (m' & (Sm & Lm) & Am). split.
    + destruct (HP i me c Ec) as (outs & Hp). destruct (call_alone C me mem c outs Va Hb Hre Hp) as (_ & m2 & Sa & _). rewrite Sa in Sm.
      apply (f_equal (fun z => fst (fst z))) in Sm. symmetry. exact Sm.
    + intros outs Hp a x Hin k Hk. destruct (call_alone C me mem c outs Va Hb Hre Hp) as (_ & m2 & Sa & Ho).
      rewrite Sa in Sm. apply (f_equal (fun z => snd (fst z))) in Sm. cbn [fst snd] in Sm. subst m2.
      destruct (Ho a x Hin) as (((A1 & A2) & Hx) & Hw).
      assert (EX : znth m' (a + k) = znth x k) by (rewrite <- Hx; rewrite znth_zslice by lia; reflexivity).
      destruct (Am (a + k)) as (B1 & B2); [lia|exists me, c; split; [exact Ec|apply Hw; lia]|]. rewrite EX in B1. split.
      * exists (v (a + k)). split; [lia|exact B1].
      * intros U y HU (t & Ht & Et). specialize (HU (a + k)). destruct (Z.eq_dec (v (a + k)) t) as [E|E]; [rewrite <- E in Et; congruence|]. rewrite B2 in Et by lia. discriminate.
  - exists mem'. split; [exact L'|]. split; [exact S'|]. split.
    + intros a Ha HN. apply Out; [exact Ha|]. intros i p E (me & c & Ec & Hc). exact (HN i me c Ec Hc).
    + intros i me c p v r Ec Ei Hr outs Hp a x Hin. destruct (Own i _ p v r (EP i me c Ec) Ei Hr) as (m' & (Sm & Lm) & Am).
      destruct (call_alone C me mem c outs Va Hb Hre Hp) as (_ & m2 & Sa & Ho).
      rewrite Sa in Sm. apply (f_equal (fun z => snd (fst z))) in Sm. cbn [fst snd] in Sm. subst m2.
      destruct (Ho a x Hin) as (((A1 & A2) & Hx) & Hw). split; [split; lia|]. rewrite <- Hx at 2. pose proof (zlen_nonneg x).
      apply list_ext; [rewrite !zlen_zslice; lia|]. rewrite zlen_zslice by lia. intros k Hk. rewrite !znth_zslice by lia.
      apply Am; [lia|]. exists me, c. split; [exact Ec|apply Hw; lia].
Qed.
Print Assumptions C54_threads.

(** A round: the threads cs start from (ms, V), all end under this schedule, and are waited for. *)
Definition passed (C : config) (ms : list message) (V : view) (mem : list Z) (cs : list (Z * call)) (sched : list (nat * Z))
    (ms' : list message) (V' : view) (mem' : list Z) : Prop :=
  let w := rx_exec sched (started C (zlen mem) ms V cs) in
  over w /\ ms' = rx_msgs w /\ V' = joined V (rx_thr w) /\ zlen mem' = zlen mem /\ shows ms' V' mem'.
(** No call of the round writes into the n bytes at a. *)
Definition leaves (C : config) (cs : list (Z * call)) (a n : Z) : Prop :=
  forall me c o k, In (me, c) cs -> In (o, k) (writes C c) -> disjoint o k a n.

Lemma round_result C ms V mem cs sched ms' V' mem' : valid (cP C) -> build_ok C -> reentrant C -> shows ms V mem -> ready C mem cs ->
  passed C ms V mem cs sched ms' V' mem' ->
  (forall a n, region mem a n -> 0 <= n -> leaves C cs a n -> zslice mem' a n = zslice mem a n) /\
  (forall me c outs, In (me, c) cs -> prescribed C mem c outs -> forall a x, In (a, x) outs -> holds mem' a (zlen x) x).
Proof.
  intros Va Hb Hre HV HR (Hov & -> & -> & L & S). destruct (C54_threads C mem ms V cs Va Hb Hre HV HR sched) as (Th & (m2 & L2 & S2 & Out & Own) & _). cbv zeta in *.
  assert (E : mem' = m2) by (eapply shows_unique; [|exact S|exact S2]; congruence). subst m2. split.
  - intros a n (R1 & R2) Hn Hl. apply list_ext; [rewrite !zlen_zslice; lia|]. rewrite zlen_zslice by lia. intros k Hk. rewrite !znth_zslice by lia. apply Out; [lia|].
    intros i me c Ec (o & j & Ho & Hj). pose proof (Hl me c o j (nth_error_In _ _ Ec) Ho) as D. unfold disjoint in D. lia.
  - intros me c outs Hc Hp a x Hin. apply In_nth_error in Hc as (i & Ec). destruct (Th i me c Ec) as (p & v & Ei & _).
    destruct (Hov i _ Ei) as (r & Hr). exact (Own i me c p v r Ec Ei Hr outs Hp a x Hin).
Qed.

(** ** A key pair, an encapsulation and a decapsulation by different threads, one after another but
    each among other threads that make calls of their own: the secrets are equal if the noise of the exchange is tolerable. *)
Theorem C54_session : forall C ms1 V1 mem1 cs1 sched1 ms2 V2 mem2 cs2 sched2 ms3 V3 mem3 cs3 sched3 ms4 V4 mem4
    me1 me2 me3 rb1 rc1 rb2 rc2 pk sk ct ss ss' s seedSE z mu, let P := cP C in
  valid P -> build_ok C -> reentrant C -> shows ms1 V1 mem1 ->
  ready C mem1 cs1 -> passed C ms1 V1 mem1 cs1 sched1 ms2 V2 mem2 ->
  ready C mem2 cs2 -> passed C ms2 V2 mem2 cs2 sched2 ms3 V3 mem3 ->
  ready C mem3 cs3 -> passed C ms3 V3 mem3 cs3 sched3 ms4 V4 mem4 ->
  In (me1, KeyPair rb1 pk sk) cs1 -> bytestr (pCB P) s -> bytestr (pCB P) seedSE -> bytestr 16 z -> delivers rb1 (2 * pCB P + 16) (s ++ seedSE ++ z) rc1 ->
  In (me2, Enc rb2 ct ss pk) cs2 -> bytestr (bytesMu P) mu -> delivers rb2 (bytesMu P) mu rc2 ->
  In (me3, Dec ss' ct sk) cs3 -> region mem1 pk (pkBytes P) -> region mem1 sk (skBytes P) -> disjoint pk (pkBytes P) sk (skBytes P) -> sk mod 2 = 0 ->
  region mem1 ct (ctBytes P) -> region mem1 ss (pCB P) -> region mem1 ss' (pCB P) -> disjoint ct (ctBytes P) pk (pkBytes P) -> disjoint ct (ctBytes P) ss (pCB P) ->
  leaves C cs2 sk (skBytes P) -> leaves C cs3 ss (pCB P) ->
  (forall t, 0 <= t < 64 -> tolerated (pD P) (pB P) (noise P seedSE (Hash P (fst (KeyGen P (cGen C) s seedSE z)) (pCB P)) mu t)) ->
  zslice mem4 ss' (pCB P) = zslice mem4 ss (pCB P).
Proof.
  intros C ms1 V1 mem1 cs1 sched1 ms2 V2 mem2 cs2 sched2 ms3 V3 mem3 cs3 sched3 ms4 V4 mem4
    me1 me2 me3 rb1 rc1 rb2 rc2 pk sk ct ss ss' s seedSE z mu P V Hb Hre HV R1 Q1 R2 Q2 R3 Q3 I1 Hs Hse Hz Hrb1 I2 Hmu Hrb2 I3 Gpk Gsk Dpk Hal Gct Gss Gss' Dct Dcs L2 L3 Hok.
  pose proof (KeyGen_parts P (cGen C) V s seedSE z (proj1 Hs)) as K.
  pose proof (Decrypt_Encaps P (cGen C) V s seedSE z mu (proj1 Hs) (proj1 Hmu) (proj2 Hmu)) as HD.
  pose proof (Encaps_reencrypt P (cGen C) V s seedSE z mu (proj1 Hs)) as HRe.
  pose proof (Encaps_shape P (cGen C) V (fst (KeyGen P (cGen C) s seedSE z)) mu) as KE.
  pose proof (pres_keypair C mem1 rb1 rc1 pk sk s seedSE z Hs Hse Hz Hrb1 Gpk Gsk Dpk) as P1.
  destruct (round_result _ _ _ _ _ _ _ _ _ V Hb Hre HV R1 Q1) as (_ & O1). specialize (O1 _ _ _ I1 P1). clear P1.
  change (cP C) with P in O1. destruct (KeyGen P (cGen C) s seedSE z) as [PK SK]. cbn [fst snd] in *. destruct K as (LP & BP & LS & BS & _). specialize (BS (proj2 Hs)).
  pose proof (O1 pk PK (or_introl eq_refl)) as H2pk. pose proof (O1 sk SK (or_intror (or_introl eq_refl))) as H2sk. rewrite LP in H2pk. rewrite LS in H2sk.
  destruct Q1 as (Q1a & Q1b & Q1c & Z2 & S2). pose proof Q2 as (_ & _ & _ & Z3 & S3). pose proof Q3 as (_ & _ & _ & Z4 & S4).
  assert (G : forall a n, region mem1 a n -> region mem2 a n /\ region mem3 a n /\ region mem4 a n) by (unfold region; intros; lia).
  destruct (G _ _ Gct) as (G2ct & _). destruct (G _ _ Gss) as (G2ss & G3ss & _). destruct (G _ _ Gsk) as (G2sk & _). destruct (G _ _ Gss') as (_ & G3ss' & _).
  pose proof (pres_enc C mem2 rb2 rc2 ct ss pk PK mu Hmu Hrb2 H2pk BP G2ct G2ss Dct Dcs) as P2.
  destruct (round_result _ _ _ _ _ _ _ _ _ V Hb Hre S2 R2 Q2) as (K2 & O2). specialize (O2 _ _ _ I2 P2). clear P2.
  change (cP C) with P in O2. destruct (Encaps P (cGen C) PK mu) as [CT SS]. cbn [fst snd] in *. destruct KE as (LC & BC & LSS & BSS). destruct HRe as (HRe & HSS).
  pose proof (O2 ct CT (or_introl eq_refl)) as H3ct. pose proof (O2 ss SS (or_intror (or_introl eq_refl))) as H3ss. rewrite LC in H3ct. rewrite LSS in H3ss.
  assert (H3sk : holds mem3 sk (skBytes P) SK).
  { destruct H2sk as (G1 & G2). split; [unfold region in *; lia|]. rewrite K2; auto. rewrite <- LS. apply zlen_nonneg. }
  pose proof (pres_dec C mem3 ss' ct sk CT SK H3sk BS Hal H3ct BC G3ss') as P3.
  destruct (round_result _ _ _ _ _ _ _ _ _ V Hb Hre S3 R3 Q3) as (K3 & O3). specialize (O3 _ _ _ I3 P3 ss' _ (or_introl eq_refl)).
  change (cP C) with P in O3. apply HD in Hok. destruct (Decaps_cases P (cGen C) V SK CT LC BC) as (H1 & _).
  rewrite H1 in O3; [|unfold accepted; rewrite Hok; exact HRe]. rewrite Hok, <- HSS, LSS in O3.
  destruct O3 as (_ & ->). rewrite K3; [symmetry; exact (proj2 H3ss)|exact G3ss|rewrite <- LSS; apply zlen_nonneg|exact L3].
Qed.
Print Assumptions C54_session.

(** The hypotheses are met: the three threads of C33_hyps, started by the program's first thread. *)
Example C54_hyps : valid (cP C976) /\ build_ok C976 /\ reentrant C976 /\ shows (first_messages mem3 0) (fun _ => 0) mem3 /\ ready C976 mem3 cs3.
Proof. destruct C33_hyps as (H1 & H2 & H3 & H4 & H5). split; [exact H3|]. split; [exact H4|]. split; [exact H5|]. split; [apply first_shows|split; assumption]. Qed.

(** Every round that is ready can be passed. *)
Lemma passed_exists C ms V mem cs : valid (cP C) -> build_ok C -> reentrant C -> shows ms V mem -> ready C mem cs ->
  exists sched ms' V' mem', passed C ms V mem cs sched ms' V' mem'.
Proof.
  intros Va Hb Hre HV HR. destruct (C54_threads C mem ms V cs Va Hb Hre HV HR []) as (_ & _ & more & Ho). cbn [app] in Ho.
  destruct (C54_threads C mem ms V cs Va Hb Hre HV HR more) as (_ & (mem' & L & S & _) & _).
  eexists more, _, _, mem'. split; [exact Ho|]. split; [reflexivity|]. split; [reflexivity|]. split; assumption.
Qed.
Lemma apart_one C (me : Z) c : apart C (map snd [(me, c)] : list call).
Proof. intros i k a b Hn Ea Eb. destruct i as [|[|i]]; cbn in Ea; try discriminate. destruct k as [|[|k]]; cbn in Eb; try discriminate. congruence. Qed.
Lemma ready_one C mem me c outs : prescribed C mem c outs -> ready C mem [(me, c)].
Proof. intros H. split; [|apply apart_one]. intros [|[|i]] me' c' E; cbn in E; try discriminate. injection E as <- <-. exists outs. exact H. Qed.
Lemma leaves_one C me c a n : (forall o k, In (o, k) (writes C c) -> disjoint o k a n) -> leaves C [(me, c)] a n.
Proof. intros H me' c' o k [E|[]] Hw. injection E as <- <-. exact (H o k Hw). Qed.
(** The hypotheses of C54_session are met (but for the noise, for which see C01): a thread makes a key
    pair at 0 and 16000, another encapsulates to it, a third decapsulates. *)
Example C54_session_hyps : exists sched1 ms2 V2 mem2 sched2 ms3 V3 mem3' sched3 ms4 V4 mem4,
  let cs1 := [(1, KeyPair rand976 0 16000)] in let cs2 := [(2, Enc rand976 50000 66000 0)] in let cs3 := [(3, Dec 90000 50000 16000)] in
  ready C976 mem3 cs1 /\ passed C976 (first_messages mem3 0) (fun _ => 0) mem3 cs1 sched1 ms2 V2 mem2 /\
  ready C976 mem2 cs2 /\ passed C976 ms2 V2 mem2 cs2 sched2 ms3 V3 mem3' /\
  ready C976 mem3' cs3 /\ passed C976 ms3 V3 mem3' cs3 sched3 ms4 V4 mem4 /\
  leaves C976 cs2 16000 (skBytes (cP C976)) /\ leaves C976 cs3 66000 (pCB (cP C976)).
Proof.
  assert (L : zlen mem3 = 200000) by (apply zlen_ztab; lia).
  assert (Epk : pkBytes (cP C976) = 15632) by reflexivity. assert (Esk : skBytes (cP C976) = 31296) by reflexivity.
  assert (Ect : ctBytes (cP C976) = 15744) by reflexivity. assert (ECB : pCB (cP C976) = 24) by reflexivity. assert (Emu : bytesMu (cP C976) = 24) by reflexivity.
  destruct C05_keypair_hyps as (K1 & K2 & K3 & K4 & _). destruct C54_hyps as (Va & Hb & Hre & S1 & _).
  match type of K1 with bytestr _ ?s => match type of K2 with bytestr _ ?se => match type of K3 with bytestr _ ?z =>
    pose proof (KeyGen_parts (cP C976) (cGen C976) Va s se z (proj1 K1)) as K;
    assert (P1 : prescribed C976 mem3 (KeyPair rand976 0 16000)
      [(0, fst (KeyGen (cP C976) (cGen C976) s se z)); (16000, snd (KeyGen (cP C976) (cGen C976) s se z))])
      by (apply (pres_keypair C976 mem3 rand976 0 0 16000 s se z K1 K2 K3 K4); unfold region, disjoint; rewrite ?Epk, ?Esk; lia);
    destruct (KeyGen (cP C976) (cGen C976) s se z) as [PK SK] end end end. cbn [fst snd] in P1.
  assert (R1 : ready C976 mem3 [(1, KeyPair rand976 0 16000)]).
  { exact (ready_one _ _ _ _ _ P1). }
  destruct (passed_exists _ _ _ _ _ Va Hb Hre S1 R1) as (sched1 & ms2 & V2 & mem2 & Q1).
  destruct (round_result _ _ _ _ _ _ _ _ _ Va Hb Hre S1 R1 Q1) as (_ & O1). specialize (O1 _ _ _ (or_introl eq_refl) P1). clear P1.
  destruct K as (LP & BP & LS & BS & _). specialize (BS (proj2 K1)).
  pose proof (O1 0 PK (or_introl eq_refl)) as Hpk. pose proof (O1 16000 SK (or_intror (or_introl eq_refl))) as Hsk. rewrite LP in Hpk. rewrite LS in Hsk. clear O1.
  pose proof Q1 as (_ & _ & _ & Z2 & S2).
  assert (Bmu : bytestr (bytesMu (cP C976)) (ztab 24 (fun i => (i * 7 + 3) mod 256))) by (rewrite Emu; apply bytestr_ztab; [lia|intros; apply mod256]).
  set (mu := ztab 24 (fun i => (i * 7 + 3) mod 256)) in *.
  assert (P2 : prescribed C976 mem2 (Enc rand976 50000 66000 0) [(50000, fst (Encaps (cP C976) (cGen C976) PK mu)); (66000, snd (Encaps (cP C976) (cGen C976) PK mu))]).
  { apply (pres_enc C976 mem2 rand976 0 50000 66000 0 PK mu Bmu (ex_intro _ [] eq_refl) Hpk BP); unfold region, disjoint; rewrite ?Epk, ?Ect, ?ECB; lia. }
  assert (R2 : ready C976 mem2 [(2, Enc rand976 50000 66000 0)]).
  { exact (ready_one _ _ _ _ _ P2). }
  assert (L2 : leaves C976 [(2, Enc rand976 50000 66000 0)] 16000 (skBytes (cP C976))).
  { apply leaves_one. intros o k Hw. cbn [writes In] in Hw. rewrite Ect, ECB in Hw. unfold disjoint. rewrite Esk. destruct Hw as [E|[E|[]]]; injection E as <- <-; lia. }
  destruct (passed_exists _ _ _ _ _ Va Hb Hre S2 R2) as (sched2 & ms3 & V3 & mem3' & Q2).
  destruct (round_result _ _ _ _ _ _ _ _ _ Va Hb Hre S2 R2 Q2) as (KK & O2). specialize (O2 _ _ _ (or_introl eq_refl) P2). clear P2.
  pose proof (Encaps_shape (cP C976) (cGen C976) Va PK mu) as KE.
  destruct (Encaps (cP C976) (cGen C976) PK mu) as [CT SS]. cbn [fst snd] in O2. destruct KE as (LC & BC & _ & _).
  pose proof (O2 50000 CT (or_introl eq_refl)) as Hct. rewrite LC in Hct. clear O2. pose proof Q2 as (_ & _ & _ & Z3 & S3).
  assert (Hsk3 : holds mem3' 16000 (skBytes (cP C976)) SK).
  { destruct Hsk as (G1 & G2). split; [unfold region in *; lia|]. rewrite KK; auto. rewrite Esk; lia. }
  assert (R3 : ready C976 mem3' [(3, Dec 90000 50000 16000)]).
  { eapply ready_one. apply (pres_dec C976 mem3' 90000 50000 16000 CT SK Hsk3 BS eq_refl Hct BC). unfold region. rewrite ECB. lia. }
  assert (L3 : leaves C976 [(3, Dec 90000 50000 16000)] 66000 (pCB (cP C976))).
  { apply leaves_one. intros o k Hw. cbn [writes In] in Hw. rewrite ECB in Hw. unfold disjoint. rewrite ECB. destruct Hw as [E|[]]; injection E as <- <-; lia. }
  destruct (passed_exists _ _ _ _ _ Va Hb Hre S3 R3) as (sched3 & ms4 & V4 & mem4 & Q3).
  exists sched1, ms2, V2, mem2, sched2, ms3, V3, mem3', sched3, ms4, V4, mem4. cbv zeta. repeat (split; [assumption|]). assumption.
Qed.

(** The machine is weaker than that of Conc.v.  Two threads store 1 to a byte each and then load the
    other's: both may read 0, which no schedule of Conc.v gives. *)
Definition sb : list (prog Z) := [St 0 1 (Ld 1 Ret); St 1 1 (Ld 0 Ret)].
Example relaxed_is_weaker :
  map fst (rx_thr (rx_exec [(0%nat, 1); (1%nat, 1); (0%nat, 0); (1%nat, 0)] (mkrx 2 (first_messages [0; 0] 0) (map (fun p => (p, fun _ => 0)) sb)))) = [Ret 0; Ret 0].
Proof. reflexivity. Qed.
(** Waiting matters: a thread that has stored 7 and ended is not enough for others to read 7 ... *)
Example without_waiting : let w := rx_exec [(0%nat, 5)] (mkrx 1 (first_messages [3] 0) [(St 0 7 (Ret 0), fun _ => 0)]) in
  map fst (rx_thr w) = [Ret 0] /\ readable (rx_msgs w) (fun _ => 0) 0 3 /\
  forall y, readable (rx_msgs w) (joined (fun _ => 0) (rx_thr w)) 0 y -> y = 7.
Proof.
  cbv zeta. split; [reflexivity|]. split; [exists 0; split; [lia|reflexivity]|].
  intros y (t & Ht & E). change (5 <= t) in Ht. change (lookup [(0, 5, 7); (-1, 0, 0); (0, 0, 3)] 0 t = Some y) in E. rewrite !lookup_cons in E.
  change (-1 =? 0) with false in E. change (0 =? 0) with true in E. destruct (Z.eqb_spec 5 t) as [H|H]; cbn [andb] in E; cbv iota in E; [congruence|].
  destruct (Z.eqb_spec 0 t) as [H0|H0]; cbv iota in E; [lia|discriminate E].
Qed.
