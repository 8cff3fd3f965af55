(** Property C54 over time: a program on a machine with relaxed memory that starts threads, waits
    for all of them, starts others, and so on; the threads call the API, and all use random.c
    (RelaxedLib.v). *)
From Verif Require Import CSem Params FrodoSpec Macrify PropMatrix Kem KemWp FrodoFacts PropKem Conc ConcProofs ConcKem ConcKemProofs PropConcKem
  Random ConcRandom ConcRandomProofs PropConcRandom ConcLib ConcLibProofs PropConcLib Relaxed PropRelaxed RelaxedRandom PropRelaxedRandom RelaxedLib RelaxedLibProofs PropRelaxedLib.

(** What there is between two rounds: the messages and what the waiting thread knows of them, the memory
    that it reads, the messages for [lock] and what it knows of them, the open descriptors of the
    device and its position. *)
Record moment := { m_msgs : list message; m_view : view; m_mem : list Z; m_lock : list message; m_time : Z; m_open : list Z; m_pos : Z }.
(** The thread reads this memory and no other, and knows of the newest value of [lock], which is -1 or an open
    descriptor. *)
Definition settled (m : moment) : Prop :=
  shows (m_msgs m) (m_view m) (m_mem m) /\ exists lock, newest_is (m_lock m) (m_time m) lock /\ device_ok lock (m_open m).
(** A round: the calls, the buffers for their random bytes in the memory stk, and the schedule. *)
Record around := { r_calls : list (Z * acall); r_stk : list Z; r_rqs : list (Z * Z); r_sched : list (nat * answer * Z) }.
(** The arguments are in place, no call writes what another uses, and each has its buffer. *)
Definition prepared (C : config) (mem : list Z) (r : around) : Prop :=
  (forall i me c, nth_error (r_calls r) i = Some (me, c) -> placed C mem c) /\
  apart C (map (fun mc => call_with [] (snd mc)) (r_calls r)) /\
  map snd (r_rqs r) = map (fun mc => need C (snd mc)) (r_calls r) /\ requests_ok (r_stk r) (r_rqs r).
(** The world at the end of the round's schedule. *)
Definition played (C : config) (st : Z -> Z) (m : moment) (r : around) : ylworld :=
  yl_exec st (r_rqs r) (r_sched r) (ybegin C (m_mem m) (m_msgs m) (m_view m) (r_calls r) (r_stk r) (r_rqs r) (m_lock m) (m_time m) (m_open m) (m_pos m)).
(** All calls of the round have ended and their threads are waited for: m' is the next moment. *)
Definition follows (C : config) (st : Z -> Z) (m : moment) (r : around) (m' : moment) : Prop :=
  let w := played C st m r in
  (forall i, (i < length (r_calls r))%nat -> exists x, yresult w i = Some x) /\
  m_msgs m' = yl_msgs w /\ m_view m' = yjoined (m_view m) w /\ zlen (m_mem m') = zlen (m_mem m) /\ shows (m_msgs m') (m_view m') (m_mem m') /\
  m_lock m' = lk_msgs (yl_rng w) /\ m_time m' = lk_joined (m_time m) (yl_rng w) /\ m_open m' = lk_open (yl_rng w) /\ m_pos m' = lk_pos (yl_rng w).
(** Rounds one after another, each with the moments before and after it. *)
Inductive rounds (C : config) (st : Z -> Z) : moment -> list (moment * around * moment) -> moment -> Prop :=
| no_round m : rounds C st m [] m
| next_round m r m' l m'' : prepared C (m_mem m) r -> follows C st m r m' -> rounds C st m' l m'' -> rounds C st m ((m, r, m') :: l) m''.

Lemma exec_none st rqs s : forall w, yl_thr w = [] -> yl_exec st rqs s w = w.
Proof.
  induction s as [|[[i a] t] s IH]; intros w H; [reflexivity|]. unfold yl_exec. cbn [fold_left]. fold (yl_exec st rqs s (yl_turn st rqs (i, a, t) w)).
  assert (E : yl_turn st rqs (i, a, t) w = w) by (unfold yl_turn; rewrite H; destruct i; reflexivity). rewrite E. apply IH, H.
Qed.
Lemma max_le T T' l : T <= T' -> (forall V, In V l -> V <= T') -> fold_right Z.max T l <= T'.
Proof. intros TT. induction l as [|V l IH]; cbn; intros H; [exact TT|]. apply Z.max_lub; [apply H; left; reflexivity|apply IH; intros U HU; apply H; right; exact HU]. Qed.
Lemma le_max T l V : In V l -> V <= fold_right Z.max T l.
Proof. induction l as [|U l IH]; cbn; intros H; [contradiction|]. destruct H as [->|H]; [lia|specialize (IH H); lia]. Qed.

(** The thread that has waited knows of the newest value of [lock]. *)
Lemma lock_known C mem ms V cs stk rqs lms T lock fds pos st sched :
  setting C mem cs stk rqs lock fds st -> newest_is lms T lock ->
  let w := yl_exec st rqs sched (ybegin C mem ms V cs stk rqs lms T fds pos) in
  (exists lock', newest_is (lk_msgs (yl_rng w)) (lk_joined T (yl_rng w)) lock' /\ device_ok lock' (lk_open (yl_rng w))) /\ pos <= lk_pos (yl_rng w).
Proof.
  intros HS HN w. pose proof (set_len C mem cs stk rqs lock fds st HS) as HL. pose proof HS as (_ & _ & _ & _ & _ & _ & _ & Hd & _).
  destruct cs as [|mc cs].
  - destruct rqs; [|discriminate HL]. unfold w. rewrite exec_none by reflexivity. split; [|cbn; lia]. exists lock. split; [exact HN|exact Hd].
  - destruct (ysim_run C mem ms V (mc :: cs) stk rqs lms T lock fds pos st HS HN sched) as (s1 & ((T' & nv & (M1 & M2 & Q & _ & VV & _ & KN)) & _)). fold w in M1, M2, Q, VV, KN.
    destruct Q as (L & _ & Hp & _ & (L1 & L2 & _) & _). cbn [proj rw_calls rw_lock rw_open rw_pos] in L, L1, L2, Hp. rewrite map_length in L.
    split; [|exact Hp]. exists nv. split; [|split; assumption].
    assert (EJ : lk_joined T (yl_rng w) = T'); [|rewrite EJ; split; assumption].
    destruct KN as [KN|(i & c & Hc)]; [rewrite KN, HL in L; discriminate L|]. pose proof (VV i c T' Hc) as TT. unfold lk_joined. apply Z.le_antisymm.
    + apply max_le; [lia|]. intros U HU. apply in_map_iff in HU as ((c' & U') & <- & HU). apply In_nth_error in HU as (j & HU). specialize (VV j c' U' HU). cbn. lia.
    + apply le_max, in_map_iff. exists (c, T'). split; [reflexivity|exact (nth_error_In _ _ Hc)].
Qed.

Section Rounds.
Variables (C : config) (st : Z -> Z).
Hypothesis V : valid (cP C).
Hypothesis Hb : build_ok C.
Hypothesis Hre : reentrant C.
Hypothesis Hst : forall p, 0 <= st p < 256.
(** What is said of a round with random bytes from the positions src of the stream. *)
Definition right (m : moment) (r : around) (m' : moment) (src : nat -> Z -> Z) : Prop :=
  (forall i me c, nth_error (r_calls r) i = Some (me, c) ->
     (exists v, yresult (played C st m r) i = Some (ret 0, v)) /\
     (forall k, 0 <= k < need C c -> m_pos m <= src i k < m_pos m') /\ (forall k l, 0 <= k < l -> l < need C c -> src i k < src i l) /\
     forall a x, In (a, x) (outputs C (m_mem m) c (ztab (need C c) (fun k => st (src i k)))) -> holds (m_mem m') a (zlen x) x) /\
  (forall i j me me' c d, i <> j -> nth_error (r_calls r) i = Some (me, c) -> nth_error (r_calls r) j = Some (me', d) ->
     forall k l, 0 <= k < need C c -> 0 <= l < need C d -> src i k <> src j l) /\
  (forall a, 0 <= a < zlen (m_mem m) -> (forall i me c, nth_error (r_calls r) i = Some (me, c) -> ~ within (writes C (call_with [] c)) a) -> znth (m_mem m') a = znth (m_mem m) a).
Lemma one_round m r m' : settled m -> prepared C (m_mem m) r -> follows C st m r m' ->
  settled m' /\ zlen (m_mem m') = zlen (m_mem m) /\ m_pos m <= m_pos m' /\ exists src, right m r m' src.
Proof.
  intros (HV & lock & HN & Hd) (Hp & Ha & Hn & Hq) (Hend & E1 & E2 & L & S & E3 & E4 & E5 & E6).
  assert (HS : setting C (m_mem m) (r_calls r) (r_stk r) (r_rqs r) lock (m_open m) st) by (repeat (split; [assumption|]); assumption).
  destruct (lock_known C (m_mem m) (m_msgs m) (m_view m) (r_calls r) (r_stk r) (r_rqs r) (m_lock m) (m_time m) lock (m_open m) (m_pos m) st (r_sched r) HS HN) as ((lock' & HN' & Hd') & Hpos).
  fold (played C st m r) in HN', Hd', Hpos. cbv zeta in *. rewrite <- E3, <- E4 in HN'. rewrite <- E5 in Hd'. rewrite <- E6 in Hpos.
  split; [split; [exact S|exists lock'; split; assumption]|]. split; [exact L|]. split; [exact Hpos|].
  destruct (C54_library C (m_mem m) (m_msgs m) (m_view m) (r_calls r) (r_stk r) (r_rqs r) (m_lock m) (m_time m) lock (m_open m) (m_pos m) st HS HV HN (r_sched r)) as (src & Th & Ds & mem' & L' & S' & Out & Own).
  fold (played C st m r) in Th, Ds, S', Own. cbv zeta in *. rewrite <- E1, <- E2 in S'.
  assert (E : m_mem m' = mem') by (eapply shows_unique; [|exact S|exact S']; congruence). subst mem'.
  assert (R : forall i me c, nth_error (r_calls r) i = Some (me, c) -> exists x v, yresult (played C st m r) i = Some (x, v)).
  { intros i me c Hi. destruct (Hend i) as ((x & v) & Hx); [apply nth_error_Some; congruence|eauto]. }
  exists src. split; [|split; [|exact Out]].
  - intros i me c Hi. destruct (R i me c Hi) as (x & v & Hx). destruct (Th i me c x v Hi Hx) as (-> & T1 & T2 & _). split; [eauto|]. rewrite E6. split; [exact T1|]. split; [exact T2|].
    exact (Own i me c _ v Hi Hx).
  - intros i j me me' c d Hij Hi Hj. destruct (R i me c Hi) as (x & v & Hx). destruct (R j me' d Hj) as (y & u & Hy). exact (Ds i j me me' c d _ _ Hij Hi Hj Hx Hy).
Qed.

(** ** Any number of rounds of any number of threads, in every build without the portable AES in use, for every
    schedule, every choice of messages and times, every behaviour of the operating system:
    - after them the waiting thread again reads one memory and knows of the newest value of [lock];
    - every call returns 0, and after its round its output buffers hold what FrodoKEM gives for the memory
      before the round and the call's random bytes, bytes of the device's stream at increasing positions;
      what no call of a round writes is the same after it;
    - no byte of the stream is used twice, neither in a call, nor in two calls, nor in two rounds. *)
Theorem C54_library_rounds : forall m l m', settled m -> rounds C st m l m' ->
  settled m' /\ zlen (m_mem m') = zlen (m_mem m) /\ m_pos m <= m_pos m' /\
  exists src : nat -> nat -> Z -> Z,
    (forall h a r b, nth_error l h = Some (a, r, b) -> settled a /\ m_pos m <= m_pos a /\ m_pos b <= m_pos m' /\ right a r b (src h)) /\
    (forall g h a r b a' r' b', (g < h)%nat -> nth_error l g = Some (a, r, b) -> nth_error l h = Some (a', r', b') -> m_pos b <= m_pos a') /\
    (forall g h a r b a' r' b' i j me me' c d, g <> h -> nth_error l g = Some (a, r, b) -> nth_error l h = Some (a', r', b') ->
       nth_error (r_calls r) i = Some (me, c) -> nth_error (r_calls r') j = Some (me', d) ->
       forall k n, 0 <= k < need C c -> 0 <= n < need C d -> src g i k <> src h j n).
Proof.
  intros m l m' Hm Hr. assert (G : settled m' /\ zlen (m_mem m') = zlen (m_mem m) /\ m_pos m <= m_pos m' /\
    exists src : nat -> nat -> Z -> Z,
    (forall h a r b, nth_error l h = Some (a, r, b) -> settled a /\ m_pos m <= m_pos a /\ m_pos b <= m_pos m' /\ right a r b (src h)) /\
    (forall g h a r b a' r' b', (g < h)%nat -> nth_error l g = Some (a, r, b) -> nth_error l h = Some (a', r', b') -> m_pos b <= m_pos a')).
  { induction Hr as [m|m r m' l m'' Hp Hf Hr IH].
    - split; [exact Hm|]. split; [reflexivity|]. split; [lia|]. exists (fun _ _ _ => 0). split; [intros [|h] a r b E; discriminate E|intros [|g] h a r b a' r' b' _ E; discriminate E].
    - destruct (one_round m r m' Hm Hp Hf) as (Hm' & L & P & s0 & H0). destruct (IH Hm') as (Hm'' & L' & P' & src & H1 & H2). split; [exact Hm''|]. split; [congruence|]. split; [lia|].
      exists (fun h => match h with O => s0 | S h => src h end). split.
      + intros [|h] a q b E; cbn [nth_error] in E; [injection E as <- <- <-; split; [exact Hm|split; [lia|split; [lia|exact H0]]]|].
        destruct (H1 h a q b E) as (X1 & X2 & X3 & X4). split; [exact X1|]. split; [lia|]. split; assumption.
      + intros [|g] [|h] a q b a' q' b' Hgh E E'; cbn [nth_error] in E, E'; try lia.
        * injection E as <- <- <-. destruct (H1 h _ _ _ E') as (_ & X & _). exact X.
        * apply (H2 g h a q b a' q' b'); [lia|assumption|assumption]. }
  destruct G as (G1 & G2 & G3 & src & G4 & G5). split; [exact G1|]. split; [exact G2|]. split; [exact G3|]. exists src. split; [exact G4|]. split; [exact G5|].
  intros g h a r b a' r' b' i j me me' c d Hgh E E' Hi Hj k n Hk Hn.
  destruct (G4 g a r b E) as (_ & _ & _ & (X1 & _)). destruct (X1 i me c Hi) as (_ & X2 & _). specialize (X2 k Hk).
  destruct (G4 h a' r' b' E') as (_ & _ & _ & (Y1 & _)). destruct (Y1 j me' d Hj) as (_ & Y2 & _). specialize (Y2 n Hn).
  destruct (lt_eq_lt_dec g h) as [[Hlt|Heq]|Hgt]; [|contradiction|].
  - pose proof (G5 g h _ _ _ _ _ _ Hlt E E'). lia.
  - pose proof (G5 h g _ _ _ _ _ _ Hgt E' E). lia.
Qed.
End Rounds.
Print Assumptions C54_library_rounds.

(** ** A key exchange *)
(** No call of these rounds writes into the n bytes at a. *)
Definition kept (C : config) (l : list (moment * around * moment)) (a n : Z) : Prop :=
  forall x r y me c o k, In (x, r, y) l -> In (me, c) (r_calls r) -> In (o, k) (writes C (call_with [] c)) -> disjoint o k a n.
Lemma rounds_app C st l : forall m l' m', rounds C st m (l ++ l') m' -> exists x, rounds C st m l x /\ rounds C st x l' m'.
Proof.
  induction l as [|[[a r] b] l IH]; intros m l' m' H; [exists m; split; [constructor|exact H]|]. cbn [app] in H. inversion H; subst.
  match goal with X : rounds _ _ _ (l ++ l') _ |- _ => destruct (IH _ _ _ X) as (x & X1 & X2) end. exists x. split; [econstructor; eassumption|exact X2].
Qed.
Lemma rounds_first C st m a r b l m' : rounds C st m ((a, r, b) :: l) m' -> a = m /\ prepared C (m_mem m) r /\ follows C st m r b /\ rounds C st b l m'.
Proof. intros H. inversion H; subst. auto. Qed.
Section Session.
Variables (C : config) (st : Z -> Z).
Hypothesis V : valid (cP C).
Hypothesis Hb : build_ok C.
Hypothesis Hre : reentrant C.
Hypothesis Hst : forall p, 0 <= st p < 256.
Lemma round_keeps m r m' a n : settled m -> prepared C (m_mem m) r -> follows C st m r m' -> region (m_mem m) a n -> 0 <= n ->
  (forall me c o k, In (me, c) (r_calls r) -> In (o, k) (writes C (call_with [] c)) -> disjoint o k a n) -> zslice (m_mem m') a n = zslice (m_mem m) a n.
Proof.
  intros Hm Hp Hf (R1 & R2) Hn Hk. destruct (one_round C st V Hb Hre Hst m r m' Hm Hp Hf) as (_ & L & _ & src & (_ & _ & Out)).
  apply list_ext; [rewrite !zlen_zslice; lia|]. rewrite zlen_zslice by lia. intros i Hi. rewrite !znth_zslice by lia. apply Out; [lia|].
  intros j me c Hj (o & k & Ho & Hin). specialize (Hk me c o k (nth_error_In _ _ Hj) Ho). unfold disjoint in Hk. lia.
Qed.
Lemma rounds_keep m l m' a n : settled m -> rounds C st m l m' -> region (m_mem m) a n -> 0 <= n -> kept C l a n -> zslice (m_mem m') a n = zslice (m_mem m) a n.
Proof.
  intros Hm Hr. induction Hr as [m|m r m' l m'' Hp Hf Hr IH]; intros R Hn Hk; [reflexivity|].
  destruct (one_round C st V Hb Hre Hst m r m' Hm Hp Hf) as (Hm' & L & _).
  rewrite IH; [|exact Hm'|unfold region in *; lia|exact Hn|intros x q y me c o k Hx; apply Hk with (1 := or_intror Hx)].
  apply (round_keeps m r); auto. intros me c o k. exact (Hk m r m' me c o k (or_introl eq_refl)).
Qed.
(** In some round a thread makes a key pair, in a later one a thread encapsulates to it, in a still later one a
    thread decapsulates; other threads make other calls.  If in between nobody overwrites the keys and the ciphertext,
    and nobody the shared secrets afterwards, the secrets read at the end are equal, provided that
    the noise that the random bytes lead to is tolerated in all 64 places.  The random bytes are bytes that
    the device delivered, at increasing positions. *)
Theorem C54_library_session : forall m l1 a1 r1 b1 l2 a2 r2 b2 l3 a3 r3 b3 l4 m' i1 i2 i3 me1 me2 me3 pk sk ct ss ss', let P := cP C in
  settled m -> rounds C st m (l1 ++ (a1, r1, b1) :: l2 ++ (a2, r2, b2) :: l3 ++ (a3, r3, b3) :: l4) m' ->
  nth_error (r_calls r1) i1 = Some (me1, AKeyPair pk sk) -> nth_error (r_calls r2) i2 = Some (me2, AEnc ct ss pk) -> nth_error (r_calls r3) i3 = Some (me3, ADec ss' ct sk) ->
  kept C l2 pk (pkBytes P) -> kept C (l2 ++ (a2, r2, b2) :: l3) sk (skBytes P) -> kept C l3 ct (ctBytes P) ->
  kept C (l3 ++ (a3, r3, b3) :: l4) ss (pCB P) -> kept C l4 ss' (pCB P) ->
  exists p q : Z -> Z,
    (forall k, 0 <= k < 2 * pCB P + 16 -> m_pos m <= p k) /\ (forall k j, 0 <= k < j -> j < 2 * pCB P + 16 -> p k < p j) /\
    (forall k j, 0 <= k < 2 * pCB P + 16 -> 0 <= j < bytesMu P -> p k < q j) /\
    (forall k j, 0 <= k < j -> j < bytesMu P -> q k < q j) /\ (forall k, 0 <= k < bytesMu P -> q k < m_pos m') /\
    let r := ztab (2 * pCB P + 16) (fun k => st (p k)) in let mu := ztab (bytesMu P) (fun k => st (q k)) in
    let s := zslice r 0 (pCB P) in let seedSE := zslice r (pCB P) (pCB P) in let z := zslice r (2 * pCB P) 16 in
    let PK := fst (KeyGen P (cGen C) s seedSE z) in
    (forall t, 0 <= t < 64 -> tolerated (pD P) (pB P) (noise P seedSE (Hash P PK (pCB P)) mu t)) ->
    zslice (m_mem m') ss' (pCB P) = zslice (m_mem m') ss (pCB P) /\ zslice (m_mem m') ss (pCB P) = snd (Encaps P (cGen C) PK mu).
Proof.
  intros m l1 a1 r1 b1 l2 a2 r2 b2 l3 a3 r3 b3 l4 m' i1 i2 i3 me1 me2 me3 pk sk ct ss ss' P Hm HR I1 I2 I3 Kp Ks Kc Kss Kss'.
  destruct (sizes C V) as (HN & HD & HB & HCB & ENN & EbB & HDN & EbC & EbMu & EP & ES & EC & Esp & EH). fold P in HN, HD, HB, HCB, ENN, EbB, HDN, EbC, EbMu, EP, ES, EC, Esp, EH.
  assert (Ppk : 0 < pkBytes P) by lia. assert (Psk : 0 < skBytes P) by lia. assert (Pct : 0 < ctBytes P) by lia.
  destruct (rounds_app C st _ _ _ _ HR) as (x1 & Q1 & HR1). apply rounds_first in HR1 as (-> & G1 & F1 & HR1).
  destruct (rounds_app C st _ _ _ _ HR1) as (x2 & Q2 & HR2). apply rounds_first in HR2 as (-> & G2 & F2 & HR2).
  destruct (rounds_app C st _ _ _ _ HR2) as (x3 & Q3 & HR3). apply rounds_first in HR3 as (-> & G3 & F3 & Q4). clear HR HR1 HR2.
  pose proof (C54_library_rounds C st V Hb Hre Hst) as RR. pose proof (one_round C st V Hb Hre Hst) as RO.
  destruct (RR _ _ _ Hm Q1) as (S1 & L1 & P1 & _). destruct (RO _ _ _ S1 G1 F1) as (T1 & M1 & N1 & s1 & (A1 & _)).
  destruct (RR _ _ _ T1 Q2) as (S2 & L2 & P2 & _). destruct (RO _ _ _ S2 G2 F2) as (T2 & M2 & N2 & s2 & (A2 & _)).
  destruct (RR _ _ _ T2 Q3) as (S3 & L3 & P3 & _). destruct (RO _ _ _ S3 G3 F3) as (T3 & M3 & N3 & s3 & (A3 & _)).
  destruct (RR _ _ _ T3 Q4) as (S4 & L4 & P4 & _). clear RR RO.
  destruct (A1 _ _ _ I1) as (_ & B1 & C1 & O1). destruct (A2 _ _ _ I2) as (_ & B2 & C2 & O2). destruct (A3 _ _ _ I3) as (_ & _ & _ & O3). clear A1 A2 A3.
  destruct G1 as (G1 & _). destruct G2 as (G2' & G2). destruct G3 as (G3' & G3). pose proof (G1 _ _ _ I1) as (Rpk & Rsk & Dps). pose proof (G2' _ _ _ I2) as (_ & _ & Rct & Rss & _ & Dcs). pose proof (G3' _ _ _ I3) as (_ & _ & _ & _ & _ & Rss').
  cbn [need] in B1, C1, B2, C2. fold P in B1, C1, B2, C2, Rpk, Rsk, Dps, Rct, Rss, Rss', Dcs. exists (s1 i1), (s2 i2).
  split; [intros k Hk; specialize (B1 k Hk); lia|]. split; [exact C1|]. split; [intros k j Hk Hj; specialize (B1 k Hk); specialize (B2 j Hj); lia|]. split; [exact C2|].
  split; [intros k Hk; specialize (B2 k Hk); lia|]. cbv zeta. intros Hok.
  cbn [outputs need] in O1, O2, O3. fold P in O1, O2, O3.
  set (rr := ztab (2 * pCB P + 16) (fun k => st (s1 i1 k))) in *. set (mu := ztab (bytesMu P) (fun k => st (s2 i2 k))) in *.
  assert (Lr : zlen rr = 2 * pCB P + 16) by (apply zlen_ztab; lia). assert (Br : bytes_ok rr) by (apply inrange_ztab; intros; apply Hst).
  assert (Lmu : zlen mu = bytesMu P) by (apply zlen_ztab; lia). assert (Bmu : bytes_ok mu) by (apply inrange_ztab; intros; apply Hst).
  set (s := zslice rr 0 (pCB P)) in *. set (seedSE := zslice rr (pCB P) (pCB P)) in *. set (z := zslice rr (2 * pCB P) 16) in *.
  assert (Ls : zlen s = pCB P) by (apply zlen_zslice; lia). assert (Bs : bytes_ok s) by (apply inrange_zslice; exact Br).
  clearbody s seedSE z mu.
  pose proof (KeyGen_parts P (cGen C) V s seedSE z Ls) as K.
  pose proof (Decrypt_Encaps P (cGen C) V s seedSE z mu Ls Lmu Bmu) as HDE.
  pose proof (Encaps_reencrypt P (cGen C) V s seedSE z mu Ls) as HRe.
  destruct (KeyGen P (cGen C) s seedSE z) as [PK SK]. cbn [fst snd] in *. cbv zeta in O1. cbn [fst snd] in O1. destruct K as (LP & BP & LS & BS & _). specialize (BS Bs).
  pose proof (O1 pk PK (or_introl eq_refl)) as (_ & Hpk). pose proof (O1 sk SK (or_intror (or_introl eq_refl))) as (_ & Hsk). rewrite LP in Hpk. rewrite LS in Hsk. clear O1.
  assert (RG : forall y a n, zlen (m_mem y) = zlen (m_mem x1) -> region (m_mem x1) a n -> region (m_mem y) a n) by (unfold region; intros y a n -> H; exact H).
  assert (Z2 : zlen (m_mem x2) = zlen (m_mem x1)) by lia.
  (* the public key at the encapsulation *)
  assert (Hpk2 : zslice (m_mem x2) pk (pkBytes P) = PK).
  { rewrite (rounds_keep b1 l2 x2); [exact Hpk|exact T1|exact Q2|apply RG; [lia|exact Rpk]|lia|exact Kp]. }
  rewrite Hpk2 in O2. pose proof (Encaps_shape P (cGen C) V PK mu) as KE. destruct (Encaps P (cGen C) PK mu) as [CT SS]. cbv zeta in O2. cbn [fst snd] in O2 |- *. destruct KE as (LC & BC & LSS & _).
  destruct HRe as (HRe & HSS). pose proof (O2 ct CT (or_introl eq_refl)) as (_ & Hct). pose proof (O2 ss SS (or_intror (or_introl eq_refl))) as (_ & Hss). rewrite LC in Hct. rewrite LSS in Hss. clear O2.
  (* the secret key and the ciphertext at the decapsulation *)
  assert (Hsk3 : zslice (m_mem x3) sk (skBytes P) = SK).
  { rewrite (rounds_keep b2 l3 x3); [|exact T2|exact Q3|apply RG; [lia|exact Rsk]|lia|intros x q y me c o k Hx; apply (Ks x q y me c o k), in_or_app; right; right; exact Hx].
    rewrite (round_keeps x2 r2 b2); [|exact S2|split; assumption|exact F2|apply RG; [lia|exact Rsk]|lia|intros me c o k; apply (Ks x2 r2 b2 me c o k), in_or_app; right; left; reflexivity].
    rewrite (rounds_keep b1 l2 x2); [exact Hsk|exact T1|exact Q2|apply RG; [lia|exact Rsk]|lia|]. intros x q y me c o k Hx. apply (Ks x q y me c o k), in_or_app. left. exact Hx. }
  assert (Hct3 : zslice (m_mem x3) ct (ctBytes P) = CT).
  { rewrite (rounds_keep b2 l3 x3); [exact Hct|exact T2|exact Q3|unfold region in *; lia|lia|exact Kc]. }
  rewrite Hsk3, Hct3 in O3. apply HDE in Hok.
  destruct (Decaps_cases P (cGen C) V SK CT LC BC) as (H1 & _). rewrite H1 in O3 by (unfold accepted; rewrite Hok; exact HRe). rewrite Hok, <- HSS in O3.
  pose proof (O3 ss' SS (or_introl eq_refl)) as (_ & Hss'). rewrite LSS in Hss'.
  assert (E1 : zslice (m_mem m') ss' (pCB P) = SS).
  { rewrite (rounds_keep b3 l4 m'); [exact Hss'|exact T3|exact Q4|unfold region in *; lia|lia|exact Kss']. }
  assert (E2 : zslice (m_mem m') ss (pCB P) = SS).
  { rewrite (rounds_keep b3 l4 m'); [|exact T3|exact Q4|unfold region in *; lia|lia|intros x q y me c o k Hx; apply (Kss x q y me c o k), in_or_app; right; right; exact Hx].
    rewrite (round_keeps x3 r3 b3); [|exact S3|split; assumption|exact F3|unfold region in *; lia|lia|intros me c o k; apply (Kss x3 r3 b3 me c o k), in_or_app; right; left; reflexivity].
    rewrite (rounds_keep b2 l3 x3); [exact Hss|exact T2|exact Q3|unfold region in *; lia|lia|]. intros x q y me c o k Hx. apply (Kss x q y me c o k), in_or_app. left. exact Hx. }
  split; congruence.
Qed.
End Session.
Print Assumptions C54_library_session.

(** ** Cases that meet the hypotheses *)
(** A memory of bytes stays one. *)
Lemma outputs_bytes C mem c r : valid (cP C) -> zlen r = need C c -> bytes_ok r ->
  forall a, within (writes C (call_with [] c)) a -> exists o x, In (o, x) (outputs C mem c r) /\ o <= a < o + zlen x /\ bytes_ok x.
Proof.
  intros V L B a (o & n & Ho & Ha). destruct (sizes C V) as (_ & _ & _ & HCB & _). destruct c as [pk sk|ct ss pk|ss ct sk]; cbn [call_with writes In outputs need] in *.
  - assert (Ls : zlen (zslice r 0 (pCB (cP C))) = pCB (cP C)) by (apply zlen_zslice; lia). assert (Bs : bytes_ok (zslice r 0 (pCB (cP C)))) by (apply inrange_zslice; exact B).
    match goal with |- context [KeyGen ?P ?g ?s ?e ?z] => pose proof (KeyGen_parts P g V s e z Ls) as K; destruct (KeyGen P g s e z) as [PK SK] end. destruct K as (LP & BP & LS & BS & _). specialize (BS Bs).
    cbv zeta. cbn [fst snd]. destruct Ho as [E|[E|[]]]; injection E as <- <-; [exists pk, PK|exists sk, SK]; rewrite ?LP, ?LS; auto.
  - match goal with |- context [Encaps ?P ?g ?p ?m] => pose proof (Encaps_shape P g V p m) as K; destruct (Encaps P g p m) as [CT SS] end. destruct K as (LC & BC & LS & BS).
    cbv zeta. cbn [fst snd]. destruct Ho as [E|[E|[]]]; injection E as <- <-; [exists ct, CT|exists ss, SS]; rewrite ?LC, ?LS; auto.
  - destruct Ho as [E|[]]; injection E as <- <-. exists ss. eexists. split; [left; reflexivity|].
    assert (X : forall k t, exists h, Decaps (cP C) (cGen C) k t = Hash (cP C) h (pCB (cP C))) by (intros k t; unfold Decaps; destruct (Encrypt _ _ _ _ _ _) as [[? ?] ?]; eauto).
    destruct (X (zslice mem sk (skBytes (cP C))) (zslice mem ct (ctBytes (cP C)))) as (h & ->). rewrite (F_zlen_Hash (cP C) (cGen C) V) by lia. split; [exact Ha|apply (F_Hash_ok (cP C) (cGen C) V)].
Qed.
Lemma round_bytes C st m r m' : valid (cP C) -> build_ok C -> reentrant C -> (forall p, 0 <= st p < 256) ->
  settled m -> prepared C (m_mem m) r -> follows C st m r m' -> bytes_ok (m_mem m) -> bytes_ok (m_mem m').
Proof.
  intros V Hb Hre Hst Hm Hp Hf B. destruct (one_round C st V Hb Hre Hst m r m' Hm Hp Hf) as (_ & L & _ & src & (A & _ & Out)).
  apply inrange_intro. intros a Ha. rewrite L in Ha.
  destruct (existsb (fun mc => existsb (fun on => (fst on <=? a) && (a <? fst on + snd on)) (writes C (call_with [] (snd mc)))) (r_calls r)) eqn:E.
  - apply existsb_exists in E as ([me c] & Hin & E). apply existsb_exists in E as ([o n] & Ho & E). cbn [fst snd] in Ho, E. apply andb_true_iff in E as (E1 & E2). apply Z.leb_le in E1. apply Z.ltb_lt in E2.
    apply In_nth_error in Hin as (i & Hi). destruct (A i me c Hi) as (_ & _ & _ & H).
    assert (HN : 0 <= need C c) by (destruct (sizes C V) as (? & ? & ? & ? & ? & ? & ? & ? & ? & _); destruct c; cbn [need]; lia).
    destruct (outputs_bytes C (m_mem m) c (ztab (need C c) (fun k => st (src i k))) V) with (a := a) as (o' & x & Hx & Ha' & Bx); [apply zlen_ztab; exact HN|apply inrange_ztab; intros; apply Hst|exists o, n; split; [exact Ho|lia]|].
    destruct (H o' x Hx) as (R & Ex). unfold region in R. replace (znth (m_mem m') a) with (znth x (a - o')); [apply inrange_znth; [exact Bx|lia]|].
    rewrite <- Ex at 1. rewrite znth_zslice by lia. f_equal. lia.
  - rewrite Out; [apply inrange_znth; assumption|exact Ha|]. intros i me c Hi (o & n & Ho & Hin).
    assert (X : existsb (fun mc => existsb (fun on => (fst on <=? a) && (a <? fst on + snd on)) (writes C (call_with [] (snd mc)))) (r_calls r) = true); [|congruence].
    apply existsb_exists. exists (me, c). split; [exact (nth_error_In _ _ Hi)|]. apply existsb_exists. exists (o, n). split; [exact Ho|]. cbn [fst snd]. apply andb_true_iff. rewrite Z.leb_le, Z.ltb_lt. lia.
Qed.
(** Every round that is prepared can be played to its end. *)
Lemma can_follow C st m cs stk rqs : valid (cP C) -> build_ok C -> reentrant C -> (forall p, 0 <= st p < 256) -> settled m ->
  prepared C (m_mem m) {| r_calls := cs; r_stk := stk; r_rqs := rqs; r_sched := [] |} ->
  exists sched m', prepared C (m_mem m) {| r_calls := cs; r_stk := stk; r_rqs := rqs; r_sched := sched |} /\ follows C st m {| r_calls := cs; r_stk := stk; r_rqs := rqs; r_sched := sched |} m'.
Proof.
  intros V Hb Hre Hst (HV & lock & HN & Hd) Hp. pose proof Hp as (H1 & H2 & H3 & H4). cbn [r_calls r_stk r_rqs] in H1, H2, H3, H4.
  assert (HS : setting C (m_mem m) cs stk rqs lock (m_open m) st) by (repeat (split; [assumption|]); assumption).
  destruct (C54_library_ends C (m_mem m) (m_msgs m) (m_view m) cs stk rqs (m_lock m) (m_time m) lock (m_open m) (m_pos m) st HS HV HN []) as (more & He). cbn [app] in He.
  destruct (C54_library C (m_mem m) (m_msgs m) (m_view m) cs stk rqs (m_lock m) (m_time m) lock (m_open m) (m_pos m) st HS HV HN more) as (_ & _ & _ & mem' & L' & S' & _).
  set (r := {| r_calls := cs; r_stk := stk; r_rqs := rqs; r_sched := more |}). cbv zeta in S'.
  change (yl_exec st rqs more (ybegin C (m_mem m) (m_msgs m) (m_view m) cs stk rqs (m_lock m) (m_time m) (m_open m) (m_pos m))) with (played C st m r) in *.
  exists more, {| m_msgs := yl_msgs (played C st m r); m_view := yjoined (m_view m) (played C st m r); m_mem := mem'; m_lock := lk_msgs (yl_rng (played C st m r));
    m_time := lk_joined (m_time m) (yl_rng (played C st m r)); m_open := lk_open (yl_rng (played C st m r)); m_pos := lk_pos (yl_rng (played C st m r)) |}.
  split; [exact Hp|]. split; [intros i Hi; destruct (He i Hi) as (v & Hx); eauto|]. cbn [m_msgs m_view m_mem m_lock m_time m_open m_pos]. fold r. repeat (split; [first [reflexivity|assumption]|]). reflexivity.
Qed.
(** The three rounds of C49_hyps: two threads make key pairs, two encapsulate to the first of them,
    two decapsulate. *)
Definition calls1 : list (Z * acall) := [(1, AKeyPair 0 16000); (2, AKeyPair 100000 120000)].
Definition calls2 : list (Z * acall) := [(1, AEnc 50000 66000 0); (2, AEnc 70000 86000 0)].
Definition calls3 : list (Z * acall) := [(1, ADec 90000 50000 16000); (2, ADec 90100 70000 16000)].
Definition first_moment : moment := {| m_msgs := first_messages mem3 0; m_view := fun _ => 0; m_mem := mem3; m_lock := [(lock_at, 0, -1)]; m_time := 0; m_open := []; m_pos := 0 |}.
Lemma calls_prepared mem cs rqs : zlen mem = 200000 -> bytes_ok mem -> (cs, rqs) = (calls1, [(0, 64); (64, 64)]) \/ (cs, rqs) = (calls2, [(0, 24); (64, 24)]) \/ (cs, rqs) = (calls3, [(0, 0); (0, 0)]) ->
  prepared C976 mem {| r_calls := cs; r_stk := zrep 200 0; r_rqs := rqs; r_sched := [] |}.
Proof.
  intros L Bm Hc. assert (LS : zlen (zrep 200 0) = 200) by (apply zlen_zrep; lia).
  assert (Epk : pkBytes (cP C976) = 15632) by reflexivity. assert (Esk : skBytes (cP C976) = 31296) by reflexivity.
  assert (Ect : ctBytes (cP C976) = 15744) by reflexivity. assert (ECB : pCB (cP C976) = 24) by reflexivity. assert (Emu : bytesMu (cP C976) = 24) by reflexivity.
  unfold prepared. cbn [r_calls r_stk r_rqs].
  destruct Hc as [E|[E|E]]; injection E as -> ->; (split; [|split; [|split; [reflexivity|split]]]).
  all: match goal with
    | |- forall i me c, _ -> placed _ _ _ =>
        intros [|[|i]] me c E; cbn in E; try (destruct i; discriminate); injection E as <- <-; unfold placed, region, disjoint; cbv zeta; rewrite ?Epk, ?Esk, ?Ect, ?ECB, ?L;
        repeat match goal with |- _ /\ _ => split | |- bytes_ok _ => apply inrange_zslice; exact Bm | |- _ mod _ = _ => reflexivity end; lia
    | |- apart _ _ =>
        intros i k a b Hn Ea Eb; destruct i as [|[|i]]; cbn in Ea; try (destruct i; discriminate); injection Ea as <-; intros o n o' n' I1 I2;
        destruct k as [|[|k]]; cbn in Eb; try (destruct k; discriminate); injection Eb as <-; try congruence;
        cbn [writes inputs app In call_with snd] in I1, I2; rewrite ?Epk, ?Esk, ?Ect, ?ECB in I1, I2;
        repeat destruct I1 as [I1|I1]; try contradiction; injection I1 as <- <-;
        repeat destruct I2 as [I2|I2]; try contradiction; injection I2 as <- <-; unfold disjoint; change (cP C976) with frodo976 in *; rewrite ?Epk, ?Esk, ?Ect, ?ECB; lia
    | |- forall i a n, _ -> _ /\ region _ _ _ =>
        intros i a n E; apply nth_error_In in E; cbn [In] in E; repeat destruct E as [E|E]; try contradiction; injection E as <- <-; unfold region; rewrite LS; lia
    | |- forall i j a n b m, _ =>
        intros i j a n b m Hij E F; unfold disjoint;
        do 2 (destruct i as [|i]; [do 2 (destruct j as [|j]; [cbn in E, F; try congruence; injection E as <- <-; injection F as <- <-; lia|]); destruct j; discriminate|]); destruct i; discriminate
    end.
Qed.
Example C54_library_session_hyps : let st p := (p * p + 7) mod 256 in
  settled first_moment /\ exists a1 r1 b1 a2 r2 b2 a3 r3 b3,
  rounds C976 st first_moment [(a1, r1, b1); (a2, r2, b2); (a3, r3, b3)] b3 /\ r_calls r1 = calls1 /\ r_calls r2 = calls2 /\ r_calls r3 = calls3 /\
  let P := cP C976 in
  nth_error (r_calls r1) 0 = Some (1, AKeyPair 0 16000) /\ nth_error (r_calls r2) 1 = Some (2, AEnc 70000 86000 0) /\ nth_error (r_calls r3) 1 = Some (2, ADec 90100 70000 16000) /\
  kept C976 [] 0 (pkBytes P) /\ kept C976 ([] ++ (a2, r2, b2) :: []) 16000 (skBytes P) /\ kept C976 [] 70000 (ctBytes P) /\
  kept C976 ([] ++ (a3, r3, b3) :: []) 86000 (pCB P) /\ kept C976 [] 90100 (pCB P).
Proof.
  cbv zeta. set (st := fun p => (p * p + 7) mod 256). destruct C54_hyps as (Va & Hb & Hre & HV & _). destruct C55_hyps as (_ & Hd & HN).
  assert (Hst : forall p, 0 <= st p < 256) by (intros; apply Z.mod_pos_bound; lia).
  assert (S1 : settled first_moment) by (split; [exact HV|exists (-1); split; assumption]). split; [exact S1|].
  assert (L1 : zlen (m_mem first_moment) = 200000) by (apply zlen_ztab; lia).
  assert (B1 : bytes_ok (m_mem first_moment)) by (apply inrange_ztab; intros; apply mod256).
  generalize dependent first_moment. intros m1 S1 L1 B1.
  destruct (can_follow C976 st m1 calls1 _ _ Va Hb Hre Hst S1 (calls_prepared (m_mem m1) _ _ L1 B1 (or_introl eq_refl))) as (s1 & m2 & P1 & F1).
  destruct (one_round C976 st Va Hb Hre Hst _ _ _ S1 P1 F1) as (S2 & L2 & _). rewrite L1 in L2. pose proof (round_bytes _ _ _ _ _ Va Hb Hre Hst S1 P1 F1 B1) as B2.
  destruct (can_follow C976 st m2 calls2 _ _ Va Hb Hre Hst S2 (calls_prepared (m_mem m2) _ _ L2 B2 (or_intror (or_introl eq_refl)))) as (s2 & m3 & P2 & F2).
  destruct (one_round C976 st Va Hb Hre Hst _ _ _ S2 P2 F2) as (S3 & L3 & _). rewrite L2 in L3. pose proof (round_bytes _ _ _ _ _ Va Hb Hre Hst S2 P2 F2 B2) as B3.
  destruct (can_follow C976 st m3 calls3 _ _ Va Hb Hre Hst S3 (calls_prepared (m_mem m3) _ _ L3 B3 (or_intror (or_intror eq_refl)))) as (s3 & m4 & P3 & F3).
  do 9 eexists. split; [exact (next_round _ _ _ _ _ _ _ P1 F1 (next_round _ _ _ _ _ _ _ P2 F2 (next_round _ _ _ _ _ _ _ P3 F3 (no_round _ _ _))))|]. cbn [r_calls].
  assert (Esk : skBytes (cP C976) = 31296) by reflexivity. assert (Ect : ctBytes (cP C976) = 15744) by reflexivity. assert (ECB : pCB (cP C976) = 24) by reflexivity.
  do 6 (split; [reflexivity|]).
  split; [intros ? ? ? ? ? ? ? []|]. split; [|split; [intros ? ? ? ? ? ? ? []|split; [|intros ? ? ? ? ? ? ? []]]].
  - intros x r y me c o k [E|[]] Hc Ho. injection E as <- <- <-. cbn [r_calls calls2 In] in Hc. destruct Hc as [E|[E|[]]]; injection E as <- <-; cbn [call_with writes In] in Ho; rewrite Ect, ECB in Ho; rewrite Esk;
      destruct Ho as [E|[E|[]]]; injection E as <- <-; unfold disjoint; lia.
  - intros x r y me c o k [E|[]] Hc Ho. injection E as <- <- <-. cbn [r_calls calls3 In] in Hc. destruct Hc as [E|[E|[]]]; injection E as <- <-; cbn [call_with writes In] in Ho; rewrite ECB in *;
      destruct Ho as [E|[]]; injection E as <- <-; unfold disjoint; lia.
Qed.
