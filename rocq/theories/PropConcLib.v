(** C41: the API called by several threads, with the random.c all of them share (Unix). *)
From Verif Require Import CSem Params FrodoSpec Macrify Kem KemWp FrodoFacts PropKem Conc ConcProofs ConcKem ConcKemProofs PropConcKem
  Random ConcRandom ConcRandomProofs PropConcRandom ConcLib ConcLibProofs.

(** How many random bytes the call asks for. *)
Definition need (C : config) (c : acall) : Z :=
  match c with AKeyPair _ _ => 2 * pCB (cP C) + 16 | AEnc _ _ _ => bytesMu (cP C) | ADec _ _ _ => 0 end.
(** The arguments of the call are in place. *)
Definition placed (C : config) (mem : list Z) (c : acall) : Prop :=
  let P := cP C in
  match c with
  | AKeyPair pk sk =>
      region mem pk (pkBytes P) /\ region mem sk (skBytes P) /\ disjoint pk (pkBytes P) sk (skBytes P)
  | AEnc ct ss pk =>
      region mem pk (pkBytes P) /\ bytes_ok (zslice mem pk (pkBytes P)) /\ region mem ct (ctBytes P) /\ region mem ss (pCB P) /\
      disjoint ct (ctBytes P) pk (pkBytes P) /\ disjoint ct (ctBytes P) ss (pCB P)
  | ADec ss ct sk =>
      region mem sk (skBytes P) /\ bytes_ok (zslice mem sk (skBytes P)) /\ sk mod 2 = 0 /\
      region mem ct (ctBytes P) /\ bytes_ok (zslice mem ct (ctBytes P)) /\ region mem ss (pCB P)
  end.
(** The call with its random bytes given, as in C33. *)
Definition call_with (r : list Z) (c : acall) : call :=
  match c with AKeyPair pk sk => KeyPair (given r) pk sk | AEnc ct ss pk => Enc (given r) ct ss pk | ADec ss ct sk => Dec ss ct sk end.
(** What FrodoKEM (FrodoSpec.v) gives for the call with the random bytes r: addresses and byte strings. *)
Definition outputs (C : config) (mem : list Z) (c : acall) (r : list Z) : list (Z * list Z) :=
  let P := cP C in
  match c with
  | AKeyPair pk sk =>
      let k := KeyGen P (cGen C) (zslice r 0 (pCB P)) (zslice r (pCB P) (pCB P)) (zslice r (2 * pCB P) 16) in
      [(pk, fst k); (sk, snd k)]
  | AEnc ct ss pk => let e := Encaps P (cGen C) (zslice mem pk (pkBytes P)) r in [(ct, fst e); (ss, snd e)]
  | ADec ss ct sk => [(ss, Decaps P (cGen C) (zslice mem sk (skBytes P)) (zslice mem ct (ctBytes P)))]
  end.

Lemma cut3 (r : list Z) a : 0 <= a -> zlen r = 2 * a + 16 -> zslice r 0 a ++ zslice r a a ++ zslice r (2 * a) 16 = r.
Proof.
  intros Ha L. apply list_ext; [rewrite !zlen_app, !zlen_zslice by lia; lia|]. rewrite !zlen_app, !zlen_zslice by lia. intros i Hi.
  destruct (Z.ltb_spec i a); [rewrite znth_app1, znth_zslice by (rewrite ?zlen_zslice by lia; lia); f_equal; lia|].
  rewrite znth_app2 by (rewrite zlen_zslice by lia; lia). rewrite zlen_zslice by lia.
  destruct (Z.ltb_spec (i - a) a); [rewrite znth_app1, znth_zslice by (rewrite ?zlen_zslice by lia; lia); f_equal; lia|].
  rewrite znth_app2 by (rewrite zlen_zslice by lia; lia). rewrite zlen_zslice, znth_zslice by lia. f_equal; lia.
Qed.
Lemma placed_prescribed C mem c r : valid (cP C) -> placed C mem c -> zlen r = need C c -> bytes_ok r ->
  prescribed C mem (call_with r c) (outputs C mem c r).
Proof.
  intros V H L B. assert (0 < pCB (cP C)) by (destruct (sizes C V) as (? & ? & ? & ? & ? & ? & ? & ?); auto).
  destruct c as [pk sk|ct ss pk|ss ct sk]; cbn [call_with outputs need placed] in *.
  - destruct H as (H1 & H2 & H3). assert (E := cut3 r (pCB (cP C)) ltac:(lia) L).
    apply (pres_keypair C mem (given r) 0 pk sk); try assumption.
    + split; [rewrite zlen_zslice; lia|apply inrange_zslice, B].
    + split; [rewrite zlen_zslice; lia|apply inrange_zslice, B].
    + split; [rewrite zlen_zslice; lia|apply inrange_zslice, B].
    + rewrite E. exists []. reflexivity.
  - destruct H as (H1 & H2 & H3 & H4 & H5 & H6). eapply (pres_enc C mem (given r) 0); try eassumption; [split; assumption|exists []; reflexivity|split; auto].
  - destruct H as (H1 & H2 & H3 & H4 & H5 & H6). apply pres_dec; auto; split; auto.
Qed.
Lemma program_call C mc r : program_r C mc r = program C (fst mc) (call_with r (snd mc)).
Proof. destruct mc as [me []]; reflexivity. Qed.
Definition calls_of (R : nat -> list Z) (cs : list (Z * acall)) : list (Z * call) :=
  map (fun i => (fst (nth i cs (0, ADec 0 0 0)), call_with (R i) (snd (nth i cs (0, ADec 0 0 0))))) (seq 0 (length cs)).
Lemma programs_map C R cs : programs C R cs = map (fun mc => program C (fst mc) (snd mc)) (calls_of R cs) /\
  forall i, nth_error (calls_of R cs) i = option_map (fun mc => (fst mc, call_with (R i) (snd mc))) (nth_error cs i).
Proof.
  unfold calls_of. split.
  - assert (G : forall j l, programs_from C R j l = map (fun mc => program C (fst mc) (snd mc)) (map (fun i => (fst (nth (i - j) l (0, ADec 0 0 0)), call_with (R i) (snd (nth (i - j) l (0, ADec 0 0 0))))) (seq j (length l)))).
    { intros j l. revert j. induction l as [|mc l IH]; intros j; [reflexivity|]. cbn [programs_from length seq map fst snd]. rewrite Nat.sub_diag. cbn [nth].
      rewrite program_call, IH. f_equal. rewrite !map_map. apply map_ext_in. intros i Hi. apply in_seq in Hi.
      replace (i - j)%nat with (Datatypes.S (i - Datatypes.S j)) by lia. reflexivity. }
    unfold programs. rewrite G. f_equal. apply map_ext. intros i. rewrite Nat.sub_0_r. reflexivity.
  - intros i. rewrite nth_error_map. destruct (Nat.ltb_spec i (length cs)).
    + assert (nth_error (seq 0 (length cs)) i = Some i) as -> by (rewrite (nth_error_nth' _ 0%nat) by (now rewrite seq_length); now rewrite seq_nth).
      rewrite (nth_error_nth' cs (0, ADec 0 0 0)) by lia. reflexivity.
    + assert (nth_error (seq 0 (length cs)) i = None) as -> by (apply nth_error_None; now rewrite seq_length).
      assert (nth_error cs i = None) as -> by (now apply nth_error_None). reflexivity.
Qed.

(** The setting: the arguments are in place, no call writes where another reads or writes, each
    thread has a buffer for its random bytes, and the device delivers bytes. *)
Definition setting (C : config) (mem : list Z) (cs : list (Z * acall)) (stk : list Z) (rqs : list (Z * Z)) (lock : Z) (fds : list Z) (st : Z -> Z) : Prop :=
  valid (cP C) /\ build_ok C /\ reentrant C /\
  (forall i me c, nth_error cs i = Some (me, c) -> placed C mem c) /\ apart C (map (fun mc => call_with [] (snd mc)) cs) /\
  map snd rqs = map (fun mc => need C (snd mc)) cs /\ requests_ok stk rqs /\ device_ok lock fds /\ forall p, 0 <= st p < 256.
Definition begin (C : config) (mem : list Z) (g : Z) (cs : list (Z * acall)) (stk : list Z) (rqs : list (Z * Z)) (lock : Z) (fds : list Z) (pos : Z) : xworld :=
  mkx mem g (map (start_thread C) cs) (start stk lock fds pos rqs).

Lemma writes_with C r c : writes C (call_with r c) = writes C (call_with [] c) /\ inputs C (call_with r c) = inputs C (call_with [] c).
Proof. destruct c; split; reflexivity. Qed.
Section Run.
Variables (C : config) (mem : list Z) (g : Z) (cs : list (Z * acall)) (stk : list Z) (rqs : list (Z * Z)) (lock : Z) (fds : list Z) (pos : Z) (st : Z -> Z).
Hypothesis HS : setting C mem cs stk rqs lock fds st.

Lemma set_req : forall i a n, nth_error rqs i = Some (a, n) -> 0 <= n < 2147483648 /\ 0 <= a /\ a + n <= zlen stk.
Proof. destruct HS as (_ & _ & _ & _ & _ & _ & (Hq & _) & _). intros i a n H. destruct (Hq i a n H) as (? & ? & ?). lia. Qed.
Lemma set_dis : forall i j a n b m, i <> j -> nth_error rqs i = Some (a, n) -> nth_error rqs j = Some (b, m) -> a + n <= b \/ b + m <= a.
Proof. destruct HS as (_ & _ & _ & _ & _ & _ & (_ & Hq) & _). exact Hq. Qed.
Lemma set_len : length rqs = length cs.
Proof. destruct HS as (_ & _ & _ & _ & _ & E & _). apply (f_equal (@length Z)) in E. now rewrite !map_length in E. Qed.
Lemma set_need i a n me c : nth_error rqs i = Some (a, n) -> nth_error cs i = Some (me, c) -> n = need C c.
Proof.
  destruct HS as (_ & _ & _ & _ & _ & E & _). intros H1 H2. apply (f_equal (fun l => nth_error l i)) in E. rewrite !nth_error_map, H1, H2 in E. injection E. auto.
Qed.
Lemma set_inv : rinv st stk pos rqs (start stk lock fds pos rqs).
Proof. destruct HS as (_ & _ & _ & _ & _ & _ & Hq & Hd & _). apply start_inv; assumption. Qed.
Lemma sim_run sched : exists s1 s2, sim C st mem g cs rqs (start stk lock fds pos rqs) s1 s2 (xexec st rqs sched (begin C mem g cs stk rqs lock fds pos)).
Proof.
  refine (sim_exec C st mem g cs stk pos rqs _ set_req set_dis set_len set_inv sched [] [] _ _).
  apply sim_start; [exact set_len|reflexivity].
Qed.

(** Random bytes for the threads, given the state reached: those delivered, and any others. *)
Definition chosen (w : xworld) (i : nat) : list Z :=
  match nth_error (x_thr w) i with Some (After _) => buffer rqs w i
  | _ => match nth_error cs i with Some mc => zrep (need C (snd mc)) 0 | None => [] end end.
Lemma agrees_chosen w : agrees cs rqs w (chosen w).
Proof. intros i mc p Hi Ha Hp. unfold chosen. rewrite Hp. reflexivity. Qed.
Lemma has_req i me c : nth_error cs i = Some (me, c) -> exists a, nth_error rqs i = Some (a, need C c).
Proof.
  intros H. assert (Hi : (i < length rqs)%nat) by (rewrite set_len; apply nth_error_Some; congruence).
  destruct (nth_error rqs i) as [[a n]|] eqn:E; [|apply nth_error_None in E; lia]. exists a. now rewrite (set_need i a n me c E H).
Qed.

(** Where the bytes came from. *)
Definition sources (w : xworld) (src : nat -> Z -> Z) : Prop :=
  (forall i a n, nth_error rqs i = Some (a, n) -> has_returned (x_rng w) i 0 ->
       forall k, 0 <= k < n -> znth (rw_mem (x_rng w)) (a + k) = st (src i k) /\ pos <= src i k < rw_pos (x_rng w)) /\
  (forall i a n, nth_error rqs i = Some (a, n) -> has_returned (x_rng w) i 0 ->
       forall k l, 0 <= k < l -> l < n -> src i k < src i l) /\
  (forall i j a n b m, i <> j -> nth_error rqs i = Some (a, n) -> nth_error rqs j = Some (b, m) ->
       has_returned (x_rng w) i 0 -> has_returned (x_rng w) j 0 ->
       forall k l, 0 <= k < n -> 0 <= l < m -> src i k <> src j l).
Lemma have_sources s1 s2 w : sim C st mem g cs rqs (start stk lock fds pos rqs) s1 s2 w ->
  zlen (rw_mem (x_rng w)) = zlen stk /\ exists src, sources w src.
Proof.
  destruct HS as (_ & _ & _ & _ & _ & _ & Hq & Hd & _). intros (E & _). unfold sources. rewrite E.
  destruct (C37_threads st stk lock fds pos rqs s2 Hq Hd) as (_ & _ & (src & A1 & A2 & A3) & L & _). split; [exact L|]. exists src. auto.
Qed.
(** What a thread past its request got. *)
Lemma got s1 s2 w src i me c p : sim C st mem g cs rqs (start stk lock fds pos rqs) s1 s2 w -> sources w src ->
  nth_error cs i = Some (me, c) -> nth_error (x_thr w) i = Some (After p) ->
  buffer rqs w i = ztab (need C c) (fun k => st (src i k)) /\ (asks c = true -> has_returned (x_rng w) i 0).
Proof.
  intros HM Hsrc Hi Hp. destruct (have_sources s1 s2 w HM) as (LM & _). destruct HM as (_ & _ & Hph & _).
  destruct (Hph i _ Hi) as (ph & c0 & rq & Q1 & Q2 & Q3 & Q4). rewrite Hp in Q1. injection Q1 as <-. destruct rq as [a n].
  pose proof (set_need i a n me c Q3 Hi) as En. destruct (set_req i a n Q3) as (Hn & Ha & Hb). cbn [snd] in Q4. subst n.
  assert (RET : asks c = true -> has_returned (x_rng w) i 0) by (intros X; rewrite X in Q4; exists c0; auto).
  split; [|exact RET]. unfold buffer. rewrite Q3. apply list_ext; [rewrite zlen_zslice, zlen_ztab by lia; reflexivity|].
  rewrite zlen_zslice by lia. intros k Hk. rewrite znth_zslice, znth_ztab by lia.
  destruct Hsrc as (A1 & _). apply (A1 i a _ Q3); [|exact Hk]. apply RET. destruct c; try reflexivity. cbn in Hk. lia.
Qed.
Lemma chosen_ok s1 s2 w i me c : sim C st mem g cs rqs (start stk lock fds pos rqs) s1 s2 w -> nth_error cs i = Some (me, c) ->
  zlen (chosen w i) = need C c /\ bytes_ok (chosen w i).
Proof.
  intros HM Hi. destruct (have_sources s1 s2 w HM) as (LM & src & Hsrc). destruct (has_req i me c Hi) as (a & Ha). destruct (set_req i _ _ Ha) as (Hn & _).
  assert (D : zlen (zrep (need C c) 0) = need C c /\ bytes_ok (zrep (need C c) 0)).
  { split; [apply zlen_zrep; lia|]. apply inrange_zrep0; lia. }
  unfold chosen. rewrite Hi. destruct (nth_error (x_thr w) i) as [[| |p]|] eqn:Ep; try exact D.
  destruct (got s1 s2 w src i me c p HM Hsrc Hi Ep) as (-> & _). split; [apply zlen_ztab; lia|].
  apply inrange_ztab. intros. destruct HS as (_ & _ & _ & _ & _ & _ & _ & _ & Hst). apply Hst.
Qed.
(** The run seen from the API's memory, with the bytes given in advance. *)
Definition fits (R : nat -> list Z) : Prop :=
  forall i me c, nth_error cs i = Some (me, c) -> zlen (R i) = need C c /\ bytes_ok (R i).
Lemma calls_fit R : fits R ->
  (forall i me c, nth_error (calls_of R cs) i = Some (me, c) -> exists outs, prescribed C mem c outs) /\ apart C (map snd (calls_of R cs)).
Proof.
  intros HF. destruct (programs_map C R cs) as (_ & N). destruct HS as (V & _ & _ & Hpl & Hap & _). split.
  - intros i me c Hi. rewrite N in Hi. destruct (nth_error cs i) as [[me0 c0]|] eqn:Ei; [|discriminate]. injection Hi as <- <-. cbn [fst snd].
    destruct (HF i me0 c0 Ei) as (X1 & X2). eexists. apply (placed_prescribed C mem c0 (R i) V (Hpl i me0 c0 Ei) X1 X2).
  - intros i k a b Hik Ha Hb. rewrite nth_error_map in Ha, Hb. rewrite N in Ha, Hb.
    destruct (nth_error cs i) as [[m1 c1]|] eqn:E1; [|discriminate]. destruct (nth_error cs k) as [[m2 c2]|] eqn:E2; [|discriminate]. cbn in Ha, Hb. injection Ha as <-. injection Hb as <-.
    destruct (writes_with C (R i) c1) as (-> & _). destruct (writes_with C (R k) c2) as (-> & ->).
    apply (Hap i k _ _ Hik); rewrite nth_error_map, ?E1, ?E2; reflexivity.
Qed.
Lemma kem_run R s1 s2 w : sim C st mem g cs rqs (start stk lock fds pos rqs) s1 s2 w -> agrees cs rqs w R ->
  exists thr, exec s1 (mkw mem g (map (fun mc => program C (fst mc) (snd mc)) (calls_of R cs))) = mkw (x_mem w) (x_g w) thr /\
    forall i ph p, nth_error (x_thr w) i = Some ph -> nth_error thr i = Some p -> rel (R i) ph p.
Proof.
  intros (_ & _ & _ & Hk) HA. destruct (Hk R HA) as (thr & E & L & Hrel). destruct (programs_map C R cs) as (E' & _). rewrite E' in E. eauto.
Qed.
End Run.

(** ** Safety *)
(** Any number of threads, each making one call of the API, every schedule, every behaviour of
    the operating system (open() fails, read() fails or is short).  A call that has returned has
    returned 0, and its outputs are those FrodoKEM gives for random bytes of the device: bytes
    of its stream at increasing positions.  No byte of the stream is used twice, neither by two
    calls nor within one.  Bytes that are nobody's output do not change. *)
Theorem C41_threads : forall C mem g cs stk rqs lock fds pos st sched, setting C mem cs stk rqs lock fds st ->
  let w := xexec st rqs sched (begin C mem g cs stk rqs lock fds pos) in
  zlen (x_mem w) = zlen mem /\
  (forall a, (forall i me c, nth_error cs i = Some (me, c) -> ~ within (writes C (call_with [] c)) a) -> znth (x_mem w) a = znth mem a) /\
  exists src : nat -> Z -> Z,
    (forall i me c r, nth_error cs i = Some (me, c) -> result w i = Some r -> r = ret 0 /\
       (forall k, 0 <= k < need C c -> pos <= src i k) /\
       (forall k l, 0 <= k < l -> l < need C c -> src i k < src i l) /\
       forall a x, In (a, x) (outputs C mem c (ztab (need C c) (fun k => st (src i k)))) -> holds (x_mem w) a (zlen x) x) /\
    (forall i j me me' c d r s, i <> j -> nth_error cs i = Some (me, c) -> nth_error cs j = Some (me', d) ->
       result w i = Some r -> result w j = Some s ->
       forall k l, 0 <= k < need C c -> 0 <= l < need C d -> src i k <> src j l).
Proof.
  intros C mem g cs stk rqs lock fds pos st sched HS w. destruct (sim_run C mem g cs stk rqs lock fds pos st HS sched) as (s1 & s2 & HM). fold w in HM.
  assert (HF : fits C cs (chosen C cs rqs w)) by (intros i me c Hi; exact (chosen_ok C mem g cs stk rqs lock fds pos st HS s1 s2 w i me c HM Hi)).
  destruct (kem_run C mem g cs stk rqs lock fds pos st (chosen C cs rqs w) s1 s2 w HM (agrees_chosen C cs rqs w)) as (thr & E & Hrel).
  destruct (calls_fit C mem cs stk rqs lock fds st HS _ HF) as (HP & HA). set (cs' := calls_of (chosen C cs rqs w) cs) in *.
  assert (N : forall i, nth_error cs' i = option_map (fun mc => (fst mc, call_with (chosen C cs rqs w i) (snd mc))) (nth_error cs i)) by apply (programs_map C).
  pose proof HS as (V & Hb & Hre & Hpl & _). destruct (C33_threads C mem g cs' V Hb Hre HP HA) as (T & HT). specialize (HT s1). cbv zeta in HT. rewrite E in HT. cbn [w_mem w_thr] in HT.
  destruct HT as (LM & Out & Th). split; [exact LM|]. split.
  { intros a Ha. apply Out. intros i me c Hi. rewrite N in Hi. destruct (nth_error cs i) as [[me0 c0]|] eqn:Ei; [|discriminate]. injection Hi as <- <-. cbn [fst snd].
    destruct (writes_with C (chosen C cs rqs w i) c0) as (-> & _). exact (Ha i me0 c0 Ei). }
  destruct (have_sources C mem g cs stk rqs lock fds pos st HS s1 s2 w HM) as (_ & src & Hsrc). exists src.
  assert (AFT : forall i r, result w i = Some r -> exists p, nth_error (x_thr w) i = Some (After p) /\ ended p = Some r).
  { intros i r. unfold result. destruct (nth_error (x_thr w) i) as [[| |p]|]; try discriminate. eauto. }
  assert (RET : forall i me c r k, nth_error cs i = Some (me, c) -> result w i = Some r -> 0 <= k < need C c -> has_returned (x_rng w) i 0).
  { intros i me c r k Hi Hr Hk. destruct (AFT i r Hr) as (p & Hp & _).
    destruct (got C mem g cs stk rqs lock fds pos st HS s1 s2 w src i me c p HM Hsrc Hi Hp) as (_ & G). apply G. destruct c; try reflexivity. cbn in Hk. lia. }
  split.
  - intros i me c r Hi Hr. destruct (AFT i r Hr) as (p & Hp & He). destruct (has_req C mem cs stk rqs lock fds st HS i me c Hi) as (a0 & Ha0).
    assert (Hi' : nth_error cs' i = Some (me, call_with (chosen C cs rqs w i) c)) by (rewrite N, Hi; reflexivity).
    destruct (Th i _ _ Hi') as (p' & Hp' & _ & Hres). pose proof (Hrel i _ p' Hp Hp') as Ep. cbn in Ep. subst p'.
    destruct (Hres r He) as (-> & Hout). split; [reflexivity|]. destruct Hsrc as (A1 & A2 & A3). split; [|split].
    + intros k Hk. destruct (A1 i a0 _ Ha0 (RET i me c _ k Hi Hr Hk) k Hk) as (_ & ?). lia.
    + intros k l H1 H2. apply (A2 i a0 _ Ha0 (RET i me c _ k Hi Hr ltac:(lia)) k l H1 H2).
    + intros a x Hin. apply (Hout (outputs C mem c (chosen C cs rqs w i))).
      * destruct (chosen_ok C mem g cs stk rqs lock fds pos st HS s1 s2 w i me c HM Hi) as (X1 & X2). apply placed_prescribed; auto. exact (Hpl i me c Hi).
      * unfold chosen. rewrite Hp. destruct (got C mem g cs stk rqs lock fds pos st HS s1 s2 w src i me c p HM (conj A1 (conj A2 A3)) Hi Hp) as (-> & _). exact Hin.
  - intros i j me me' c d r s Hij Hi Hj Hri Hrj k l Hk Hl. destruct (has_req C mem cs stk rqs lock fds st HS i me c Hi) as (a & Ha). destruct (has_req C mem cs stk rqs lock fds st HS j me' d Hj) as (b & Hb').
    destruct Hsrc as (_ & _ & A3). apply (A3 i j a _ b _ Hij Ha Hb' (RET i me c r k Hi Hri Hk) (RET j me' d s l Hj Hrj Hl) k l Hk Hl).
Qed.
Print Assumptions C41_threads.

(** ** Progress *)
Section Live.
Variables (C : config) (mem : list Z) (g : Z) (cs : list (Z * acall)) (stk : list Z) (rqs : list (Z * Z)) (lock : Z) (fds : list Z) (pos : Z) (st : Z -> Z).
Hypothesis HS : setting C mem cs stk rqs lock fds st.
Let HRq := set_req C mem cs stk rqs lock fds st HS.
Let HDs := set_dis C mem cs stk rqs lock fds st HS.
Let HLn := set_len C mem cs stk rqs lock fds st HS.
Let HIn := set_inv C mem cs stk rqs lock fds pos st HS.
Notation simm := (sim C st mem g cs rqs (start stk lock fds pos rqs)).
Notation run := (xexec st rqs).
Let turn_sim := sim_turn C st mem g cs stk pos rqs (start stk lock fds pos rqs) HRq HDs HLn HIn.
Let simm_rinv := sim_rinv C st mem g cs stk pos rqs (start stk lock fds pos rqs) HRq HDs HIn.

Lemma xexec_app s1 s2 w : run (s1 ++ s2) w = run s2 (run s1 w).
Proof. apply fold_left_app. Qed.
Lemma in_range s1 s2 w i : simm s1 s2 w -> (i < length cs)%nat -> exists mc ph, nth_error cs i = Some mc /\ nth_error (x_thr w) i = Some ph.
Proof.
  intros (_ & L & _) Hi. destruct (nth_error cs i) as [mc|] eqn:E; [|apply nth_error_None in E; lia].
  destruct (nth_error (x_thr w) i) as [ph|] eqn:E2; [eauto|apply nth_error_None in E2; lia].
Qed.
Lemma no_fault s1 s2 w i k e : simm s1 s2 w -> nth_error (x_thr w) i <> Some (Before (Fault e) k).
Proof.
  intros HM Hp. assert (HF : fits C cs (chosen C cs rqs w)) by (intros j me c Hi; exact (chosen_ok C mem g cs stk rqs lock fds pos st HS s1 s2 w j me c HM Hi)).
  destruct (kem_run C mem g cs stk rqs lock fds pos st (chosen C cs rqs w) s1 s2 w HM (agrees_chosen C cs rqs w)) as (thr & E & Hrel).
  destruct (calls_fit C mem cs stk rqs lock fds st HS _ HF) as (HP & HA). destruct (programs_map C (chosen C cs rqs w) cs) as (_ & N).
  pose proof HS as (V & Hb & Hre & _). destruct (C33_threads C mem g _ V Hb Hre HP HA) as (T & HT). specialize (HT s1). cbv zeta in HT. rewrite E in HT. cbn [w_mem w_thr] in HT. destruct HT as (_ & _ & Th).
  assert (Hi : (i < length cs)%nat) by (destruct HM as (_ & L & _); rewrite <- L; apply nth_error_Some; congruence).
  destruct (in_range s1 s2 w i HM Hi) as ([me c] & _ & Hc & _).
  destruct (Th i me (call_with (chosen C cs rqs w i) c)) as (p & Hp' & _ & Hres); [rewrite N, Hc; reflexivity|].
  pose proof (Hrel i _ p Hp Hp') as Ep. cbn in Ep. subst p. destruct (Hres (Err e) eq_refl) as (X & _). discriminate.
Qed.

Definition before (w : xworld) (i : nat) : Prop := exists p k, nth_error (x_thr w) i = Some (Before p k).
Definition asking (w : xworld) (i : nat) : Prop := exists k, nth_error (x_thr w) i = Some (Asking k).
Definition after (w : xworld) (i : nat) : Prop := exists p, nth_error (x_thr w) i = Some (After p).

(** Phases follow each other in order. *)
Lemma turn_mono s1 s2 w ia i : simm s1 s2 w -> (after w i -> after (xturn st rqs ia w) i) /\ (asking w i -> asking (xturn st rqs ia w) i \/ after (xturn st rqs ia w) i).
Proof.
  intros HM. destruct (turn_sim s1 s2 w ia HM) as (s1' & s2' & _ & Hc & Ho). destruct (Nat.eq_dec i (fst ia)) as [->|Hn].
  - split.
    + intros (p & Hp). rewrite Hp in Hc. apply Hc.
    + intros (k & Hk). rewrite Hk in Hc. destruct Hc as [(_ & _ & E)|(_ & _ & E)]; [left; exists k; now rewrite E|right; exact E].
  - unfold after, asking. rewrite (Ho i Hn). auto.
Qed.
Lemma run_mono s : forall s1 s2 w i, simm s1 s2 w -> (after w i -> after (run s w) i) /\ (asking w i -> asking (run s w) i \/ after (run s w) i).
Proof.
  induction s as [|ia s IH]; intros s1 s2 w i HM; [cbn; auto|]. destruct (turn_mono s1 s2 w ia i HM) as (A1 & A2).
  destruct (turn_sim s1 s2 w ia HM) as (s1' & s2' & HM' & _). destruct (IH s1' s2' _ i HM') as (B1 & B2).
  cbn [xexec fold_left]. split; [auto|]. intros H. destruct (A2 H); auto.
Qed.
Lemma turns_cons i j a s : turns i ((j, a) :: s) = ((if Nat.eq_dec j i then 1 else 0) + turns i s)%nat.
Proof. unfold turns. cbn [map fst count_occ]. destruct (Nat.eq_dec j i); lia. Qed.
Lemma turns_app i s1 s2 : turns i (s1 ++ s2) = (turns i s1 + turns i s2)%nat.
Proof. unfold turns. rewrite map_app, count_occ_app. reflexivity. Qed.

(** Stage 1: every thread comes to its request. *)
Lemma reach_request s : forall s1 s2 w i m, simm s1 s2 w -> (i < length cs)%nat ->
  (forall p k, nth_error (x_thr w) i = Some (Before p k) -> short m p) -> (m + 1 <= turns i s)%nat ->
  asking (run s w) i \/ after (run s w) i.
Proof.
  induction s as [|[j a] s IH]; intros s1 s2 w i m HM Hi Hsh Ht; [unfold turns in Ht; cbn in Ht; lia|].
  destruct (turn_sim s1 s2 w (j, a) HM) as (s1' & s2' & HM' & Hc & Ho). cbn [fst] in Hc, Ho. rewrite turns_cons in Ht. cbn [xexec fold_left]. fold (run s (xturn st rqs (j, a) w)).
  destruct (in_range s1 s2 w i HM Hi) as (mc & ph & Hmc & Hph). destruct (Nat.eq_dec j i) as [->|Hn].
  2:{ apply (IH s1' s2' _ i m HM' Hi); [|lia]. intros p k. rewrite (Ho i ltac:(congruence)). apply Hsh. }
  rewrite Hph in Hc. destruct (run_mono s s1' s2' (xturn st rqs (i, a) w) i HM') as (_ & M2).
  destruct ph as [p k|k|p].
  - specialize (Hsh p k Hph). destruct Hsh as [m x|m e|m ad kk Hk].
    + apply M2. destruct Hc as (_ & _ & Hc). eexists; exact Hc.
    + exfalso. exact (no_fault s1 s2 w i k e HM Hph).
    + destruct Hc as (_ & _ & Hc). apply (IH s1' s2' _ i m HM' Hi); [|lia]. intros p' k'. rewrite Hc. intros E. injection E as <- _.
      cbn [step]. destruct (in_mem (x_mem w) ad); cbn [fst]; [apply Hk|constructor].
  - destruct (run_mono ((i, a) :: s) s1 s2 w i HM) as (_ & M). apply M. eexists; exact Hph.
  - destruct (run_mono ((i, a) :: s) s1 s2 w i HM) as (M & _). right. apply M. eexists; exact Hph.
Qed.

Definition no_before (w : xworld) : Prop := forall i, (i < length cs)%nat -> asking w i \/ after w i.
Lemma no_before_run s s1 s2 w : simm s1 s2 w -> no_before w -> no_before (run s w).
Proof. intros HM H i Hi. destruct (run_mono s s1 s2 w i HM) as (A & B). destruct (H i Hi); auto. Qed.
Lemma asking_back s s1 s2 w i : simm s1 s2 w -> no_before w -> asking (run s w) i -> asking w i.
Proof.
  intros HM HN (k & Hk). assert (Hi : (i < length cs)%nat).
  { destruct (sim_exec C st mem g cs stk pos rqs _ HRq HDs HLn HIn s s1 s2 w HM) as (x & y & (_ & L & _)). rewrite <- L. apply nth_error_Some. congruence. }
  destruct (HN i Hi) as [H|H]; [exact H|]. destruct (run_mono s s1 s2 w i HM) as (A & _). destruct (A H) as (p & Hp). congruence.
Qed.

(** Stage 2, seen from random.c. *)
Lemma rng_part s : forall s1 s2 w, simm s1 s2 w -> no_before w -> exists s1' s2', simm s1' (s2 ++ s2') (run s w) /\
  (forall ia, In ia s2' -> In ia s) /\ (forall i, asking (run s w) i -> turns i s2' = turns i s).
Proof.
  induction s as [|[j a] s IH]; intros s1 s2 w HM HN.
  - exists s1, []. rewrite app_nil_r. split; [exact HM|]. split; [auto|]. reflexivity.
  - destruct (turn_sim s1 s2 w (j, a) HM) as (s1' & s2' & HM' & Hc & Ho). cbn [fst] in Hc, Ho.
    assert (HN' : no_before (xturn st rqs (j, a) w)) by (exact (no_before_run [(j, a)] s1 s2 w HM HN)).
    destruct (IH s1' s2' _ HM' HN') as (s1'' & s2'' & HM'' & Hin & Htu). change (run ((j, a) :: s) w) with (run s (xturn st rqs (j, a) w)).
    assert (SAME : s2' = s2 -> (~ asking (xturn st rqs (j, a) w) j) -> exists s1' s2'0, simm s1' (s2 ++ s2'0) (run s (xturn st rqs (j, a) w)) /\
        (forall ia, In ia s2'0 -> In ia ((j, a) :: s)) /\ (forall i, asking (run s (xturn st rqs (j, a) w)) i -> turns i s2'0 = turns i ((j, a) :: s))).
    { intros -> Hna. exists s1'', s2''. split; [exact HM''|]. split; [intros ia Hia; right; auto|]. intros i Hi. rewrite turns_cons.
      destruct (Nat.eq_dec j i) as [<-|]; [|rewrite (Htu i Hi); reflexivity]. destruct (Hna (asking_back s s1' s2 _ j HM' HN' Hi)). }
    destruct (nth_error (x_thr w) j) as [[p k|k|p]|] eqn:Ej.
    + assert (Hj : (j < length cs)%nat) by (destruct HM as (_ & L & _); rewrite <- L; apply nth_error_Some; congruence).
      destruct (HN j Hj) as [(k' & E)|(k' & E)]; congruence.
    + destruct Hc as [(_ & -> & _)|(_ & E & (p & Hp))]; [|apply SAME; [exact E|intros (k' & E'); congruence]].
      exists s1'', ((j, a) :: s2''). split; [rewrite <- app_assoc in HM''; exact HM''|]. split; [intros ia [<-|Hia]; [left; reflexivity|right; auto]|].
      intros i Hi. rewrite !turns_cons, (Htu i Hi). reflexivity.
    + destruct Hc as (_ & E & (p' & Hp)). apply SAME; [exact E|intros (k' & E'); congruence].
    + destruct Hc as (_ & E). apply SAME; [exact E|]. intros (k' & E').
      assert (Hj : (j < length cs)%nat) by (destruct HM' as (_ & L & _); rewrite <- L; apply nth_error_Some; congruence).
      apply nth_error_None in Ej. destruct HM as (_ & L & _). lia.
Qed.
Lemma rng_part' s s1 s2 w : simm s1 s2 w -> no_before w -> good_sched s -> exists s1' s2' s2'', simm s1' s2' (run s w) /\
  x_rng (run s w) = rexec st s2'' (x_rng w) /\ good_sched s2'' /\ (forall i, asking (run s w) i -> turns i s2'' = turns i s).
Proof.
  intros HM HN HG. destruct (rng_part s s1 s2 w HM HN) as (s1' & s2' & HM' & Hin & Ht). exists s1', (s2 ++ s2'), s2'. split; [exact HM'|]. split; [|split; [|exact Ht]].
  - destruct HM' as (-> & _). destruct HM as (-> & _). apply fold_left_app.
  - intros ia Hia. apply HG, Hin, Hia.
Qed.
(** A call of randombytes in progress belongs to a thread that is asking. *)
Lemma busy_asking s1 s2 w i c : simm s1 s2 w -> nth_error (rw_calls (x_rng w)) i = Some c -> rc_pc c <> PTest -> rc_pc c <> PRet 0 ->
  asking w i.
Proof.
  intros HM Hc H1 H2. pose proof (simm_rinv s1 s2 w HM) as (L & _).
  assert (Hi : (i < length cs)%nat) by (rewrite <- HLn, <- L; apply nth_error_Some; congruence).
  destruct (in_range s1 s2 w i HM Hi) as (mc & ph & Hmc & Hph). destruct HM as (_ & _ & P & _).
  destruct (P i mc Hmc) as (ph' & c' & rq & Q1 & Q2 & Q3 & Q4). rewrite Hph in Q1. injection Q1 as <-. rewrite Hc in Q2. injection Q2 as <-.
  destruct ph as [p k|k|p]; [destruct Q4 as (_ & ->); destruct H1; reflexivity|exists k; exact Hph|].
  destruct (asks (snd mc)); [contradiction|]. subst c. destruct H1; reflexivity.
Qed.
(** While lock is -1 no call gets past opening the device. *)
Lemma leave_dist s : forall w i c c', good_sched s -> rinv st stk pos rqs w -> no_reset w -> nth_error (rw_calls w) i = Some c -> dist (rc_pc c) <> None ->
  nth_error (rw_calls (rexec st s w)) i = Some c' -> dist (rc_pc c') = None -> rw_lock (rexec st s w) <> -1.
Proof.
  induction s as [|[j a] s IH]; intros w i c c' Hg HI HN Hc Hd Hc' Hd'.
  - cbn in Hc'. rewrite Hc in Hc'. injection Hc' as <-. contradiction.
  - assert (Gs : good_sched s) by (intros ia Hia; apply Hg; right; exact Hia).
    assert (Ga : good_answer a) by (apply (Hg (j, a)); left; reflexivity).
    change (rexec st ((j, a) :: s) w) with (rexec st s (rturn st (j, a) w)) in *.
    assert (HI' : rinv st stk pos rqs (rturn st (j, a) w)) by (apply rinv_turn; assumption).
    assert (HN' : no_reset (rturn st (j, a) w)) by (apply no_reset_turn; assumption).
    destruct (Z.eq_dec (rw_lock w) (-1)) as [El|El]; [|apply (lock_exec st stk pos rqs HRq HDs); try assumption; eapply lock_turn; eassumption].
    pose proof (nth_turn st w j a i) as Hi'. rewrite Hc in Hi'.
    destruct (Nat.eq_dec j i) as [->|Hn]; [|apply (IH _ i c c' Gs HI' HN' Hi' Hd Hc' Hd')].
    apply (IH _ i _ c' Gs HI' HN' Hi'); [|exact Hc'|exact Hd']. pose proof (HN i c Hc) as Hns. destruct c as [b p n0 count]. unfold rstep. cbn [rc_pc rc_n rc_count rc_buf] in *.
    destruct Ga as (Go & _). destruct p as [| |fd| | | | |fd|v|e]; cbn in Hd; try congruence; unfold at_; cbn [fst rc_pc].
    + rewrite El. cbn. discriminate.
    + destruct (an_open a); [|congruence]. cbn. discriminate.
    + cbn. discriminate.
    + cbn. discriminate.
    + rewrite El. cbn. discriminate.
Qed.
Lemma step_out s : forall s1 s2 w i c, simm s1 s2 w -> no_before w -> nth_error (rw_calls (x_rng w)) i = Some c -> rc_pc c = PRet 0 -> (1 <= turns i s)%nat ->
  ~ asking (run s w) i.
Proof.
  induction s as [|[j a] s IH]; intros s1 s2 w i c HM HN Hc Ep Ht; [unfold turns in Ht; cbn in Ht; lia|]. rewrite turns_cons in Ht.
  destruct (turn_sim s1 s2 w (j, a) HM) as (s1' & s2' & HM' & _ & Ho). cbn [fst] in Ho. change (run ((j, a) :: s) w) with (run s (xturn st rqs (j, a) w)).
  assert (HN' : no_before (xturn st rqs (j, a) w)) by (exact (no_before_run [(j, a)] s1 s2 w HM HN)).
  intros Hask. destruct (asking_back s s1' s2' _ i HM' HN' Hask) as (k & Hk).
  destruct (Nat.eq_dec j i) as [->|Hn].
  - destruct (asking_back [(i, a)] s1 s2 w i HM HN (ex_intro _ k Hk)) as (k' & Hk'). unfold xturn in Hk. cbn [fst] in Hk. rewrite Hk', Hc in Hk.
    pose proof (simm_rinv s1 s2 w HM) as (L & _). destruct (calls_nth rqs (x_rng w) i c L Hc) as (b & n & Hb). rewrite Hb, Ep in Hk. cbn [x_thr] in Hk.
    rewrite (nth_ph_eq _ _ _ _ Hk') in Hk. discriminate.
  - apply (IH s1' s2' _ i c HM' HN'); [|exact Ep|lia|exact Hask].
    assert (X : x_rng (xturn st rqs (j, a) w) = x_rng w \/ x_rng (xturn st rqs (j, a) w) = rturn st (j, a) (x_rng w)).
    { unfold xturn. cbn [fst]. destruct (nth_error (x_thr w) j) as [[p k0|k0|p]|]; auto.
      - destruct p; auto; destruct (step _ _ _) as [[? ?] ?]; auto.
      - destruct (nth_error (rw_calls (x_rng w)) j) as [c0|]; auto. destruct (nth_error rqs j) as [[b n]|]; auto. destruct (rc_pc c0); auto.
      - destruct (step _ _ _) as [[? ?] ?]; auto. }
    destruct X as [->| ->]; [exact Hc|]. rewrite nth_turn, Hc. destruct (Nat.eq_dec j i); [congruence|reflexivity].
Qed.

(** Stage 2: every request is answered. *)
Lemma reach_after w s1 s2 r1 mid late r5 : simm s1 s2 w -> no_before w ->
  good_sched r1 -> good_sched mid -> good_sched late -> good_sched r5 ->
  (forall i, (i < length cs)%nat -> (1 <= turns i r1)%nat /\ (4 <= turns i mid)%nat /\ (1 <= turns i r5)%nat /\
     forall a n, nth_error rqs i = Some (a, n) -> 3 * n + 6 <= Z.of_nat (turns i late)) ->
  forall i, (i < length cs)%nat -> after (run (r1 ++ mid ++ late ++ r5) w) i.
Proof.
  intros HM HN G1 G2 G3 G5 HT i Hi. rewrite !xexec_app.
  destruct (rng_part' r1 s1 s2 w HM HN G1) as (a1 & b1 & c1 & HM1 & E1 & GC1 & T1). pose proof (no_before_run r1 s1 s2 w HM HN) as HN1. set (w1 := run r1 w) in *.
  destruct (rng_part' mid a1 b1 w1 HM1 HN1 G2) as (a2 & b2 & c2 & HM2 & E2 & GC2 & T2). pose proof (no_before_run mid a1 b1 w1 HM1 HN1) as HN2. set (w2 := run mid w1) in *.
  destruct (rng_part' late a2 b2 w2 HM2 HN2 G3) as (a3 & b3 & c3 & HM3 & E3 & GC3 & T3). pose proof (no_before_run late a2 b2 w2 HM2 HN2) as HN3. set (w3 := run late w2) in *.
  destruct (no_before_run r5 a3 b3 w3 HM3 HN3 i Hi) as [Hask|H]; [exfalso|exact H].
  pose proof (asking_back r5 a3 b3 w3 i HM3 HN3 Hask) as A3. pose proof (asking_back late a2 b2 w2 i HM2 HN2 A3) as A2. pose proof (asking_back mid a1 b1 w1 i HM1 HN1 A2) as A1.
  pose proof (simm_rinv _ _ _ HM1) as I1. pose proof (simm_rinv _ _ _ HM2) as I2. pose proof (simm_rinv _ _ _ HM3) as I3.
  assert (J : forall s1 s2 w j c, simm s1 s2 w -> nth_error (rw_calls (x_rng w)) j = Some c -> (j < length cs)%nat).
  { intros x y v j c HMv Hc. pose proof (simm_rinv _ _ _ HMv) as (L & _). rewrite <- HLn, <- L. apply nth_error_Some. congruence. }
  assert (N1 : no_reset (x_rng w1)).
  { intros j c Hc Ep. assert (Aj : asking w1 j) by (apply (busy_asking a1 b1 w1 j c HM1 Hc); rewrite Ep; discriminate).
    rewrite E1 in Hc. refine (no_reset_one st c1 (x_rng w) j GC1 _ c Hc Ep). left. rewrite (T1 j Aj). destruct (HT j) as (X & _); [|exact X].
    eapply J; [exact HM1|]. rewrite E1. exact Hc. }
  assert (N2 : no_reset (x_rng w2)) by (rewrite E2; apply no_reset_exec; assumption).
  assert (L2 : rw_lock (x_rng w2) <> -1).
  { rewrite E2. destruct (Z.eq_dec (rw_lock (x_rng w1)) (-1)) as [El|El]; [|apply (lock_exec st stk pos rqs HRq HDs); assumption].
    pose proof I1 as (Ln & _ & _ & _ & (_ & _ & _ & H4) & _). destruct (H4 El) as [HP|(j & c & Hc & Ho)].
    - destruct (nth_error (rw_calls (x_rng w1)) i) as [c|] eqn:Ec; [|apply nth_error_None in Ec; lia].
      apply (lock_set st stk pos rqs HRq HDs c2 (x_rng w1) i c 3 GC2 I1 N1 Ec); [rewrite (HP i c Ec); reflexivity|]. rewrite (T2 i A2). destruct (HT i Hi) as (_ & X & _). lia.
    - assert (Hj : (j < length cs)%nat) by (eapply J; [exact HM1|exact Hc]).
      destruct (HN2 j Hj) as [Aj|Aj].
      + destruct (rc_pc c) eqn:Ep; cbn in Ho; try contradiction;
          (eapply (lock_set st stk pos rqs HRq HDs c2 (x_rng w1) j c _ GC2 I1 N1 Hc); [rewrite Ep; reflexivity|]; rewrite (T2 j Aj); destruct (HT j Hj) as (_ & X & _); lia).
      + destruct Aj as (p & Hp). assert (Aj1 : asking w1 j) by (apply (busy_asking a1 b1 w1 j c HM1 Hc); intros Ep; rewrite Ep in Ho; exact Ho).
        destruct (in_range a2 b2 w2 j HM2 Hj) as (mc & _ & Hmc & _). pose proof HM2 as (_ & _ & P2 & _). destruct (P2 j mc Hmc) as (ph & c' & rq & Q1 & Q2 & Q3 & Q4). rewrite Hp in Q1. injection Q1 as <-.
        assert (Hasks : asks (snd mc) = true).
        { pose proof HM1 as (_ & _ & P1 & _). destruct (P1 j mc Hmc) as (ph & c1' & rq' & R1 & R2 & R3 & R4). destruct Aj1 as (k & Hk). rewrite Hk in R1. injection R1 as <-. exact R4. }
        rewrite Hasks in Q4. rewrite E2 in Q2. eapply (leave_dist c2 (x_rng w1) j c c' GC2 I1 N1 Hc); [|exact Q2|rewrite Q4; reflexivity].
        destruct (rc_pc c); cbn in Ho; try contradiction; discriminate. }
  destruct (nth_error (rw_calls (x_rng w2)) i) as [c|] eqn:Ec.
  2:{ pose proof I2 as (Ln & _). apply nth_error_None in Ec. lia. }
  destruct (finish st stk pos rqs HRq HDs c3 (x_rng w2) i c GC3 I2 N2 L2 Ec) as (c' & Hc' & Ep).
  { rewrite (T3 i A3). pose proof I2 as (Ln & _ & _ & HC & _). destruct (calls_nth rqs (x_rng w2) i c Ln Ec) as (b & n & Hb). destruct (HC i b n c Hb Ec) as (_ & E & ? & ? & _).
    destruct (HT i Hi) as (_ & _ & _ & X). specialize (X b n Hb). unfold todo. destruct (rc_pc c); try lia. destruct (is_open _ _); lia. }
  rewrite <- E3 in Hc'. apply (step_out r5 a3 b3 w3 i c' HM3 HN3 Hc' Ep); [|exact Hask]. apply (HT i Hi).
Qed.

(** Stage 3: the rest of the call. *)
Lemma after_part s : forall s1 s2 w, simm s1 s2 w -> (forall i, (i < length cs)%nat -> after w i) ->
  exists s1', simm (s1 ++ s1') s2 (run s w) /\ forall i, (i < length cs)%nat -> count_occ Nat.eq_dec s1' i = turns i s.
Proof.
  induction s as [|[j a] s IH]; intros s1 s2 w HM HA.
  - exists []. rewrite app_nil_r. split; [exact HM|]. reflexivity.
  - destruct (turn_sim s1 s2 w (j, a) HM) as (s1' & s2' & HM' & Hc & Ho). cbn [fst] in Hc, Ho.
    assert (HA' : forall i, (i < length cs)%nat -> after (xturn st rqs (j, a) w) i) by (intros i Hi; apply (turn_mono s1 s2 w (j, a) i HM), HA, Hi).
    change (run ((j, a) :: s) w) with (run s (xturn st rqs (j, a) w)).
    destruct (nth_error (x_thr w) j) as [ph|] eqn:Ej.
    + assert (Hj : (j < length cs)%nat) by (destruct HM as (_ & L & _); rewrite <- L; apply nth_error_Some; congruence).
      destruct (HA j Hj) as (p & Hp). rewrite Hp in Ej. injection Ej as <-. destruct Hc as (-> & -> & _).
      destruct (IH _ _ _ HM' HA') as (s1'' & HM'' & Hc). exists (j :: s1''). split; [rewrite <- app_assoc in HM''; exact HM''|].
      intros i Hi. rewrite turns_cons, <- (Hc i Hi). cbn [count_occ]. destruct (Nat.eq_dec j i); lia.
    + destruct Hc as (-> & ->). destruct (IH _ _ _ HM' HA') as (s1'' & HM'' & Hc). exists s1''. split; [exact HM''|].
      intros i Hi. rewrite turns_cons, <- (Hc i Hi). destruct (Nat.eq_dec j i) as [<-|]; [|reflexivity]. apply nth_error_None in Ej. destruct HM as (_ & L & _). lia.
Qed.
Lemma reach_end s1 s2 w : simm s1 s2 w -> (forall i, (i < length cs)%nat -> after w i) ->
  exists T : nat, forall s i, (i < length cs)%nat -> (T <= turns i s)%nat -> result (run s w) i = Some (ret 0).
Proof.
  intros HM HA. assert (HF : fits C cs (chosen C cs rqs w)) by (intros j me c Hi; exact (chosen_ok C mem g cs stk rqs lock fds pos st HS s1 s2 w j me c HM Hi)).
  destruct (calls_fit C mem cs stk rqs lock fds st HS _ HF) as (HP & HAp). destruct (programs_map C (chosen C cs rqs w) cs) as (_ & N).
  pose proof HS as (V & Hb & Hre & _). destruct (C33_threads C mem g _ V Hb Hre HP HAp) as (T & HTT). exists T. intros s i Hi Ht.
  destruct (after_part s s1 s2 w HM HA) as (s1' & HM' & Hc). destruct (in_range s1 s2 w i HM Hi) as ([me c] & _ & Hmc & _).
  assert (AG : agrees cs rqs (run s w) (chosen C cs rqs w)).
  { intros j mc p Hj Ha Hp. assert (Hjl : (j < length cs)%nat) by (apply nth_error_Some; congruence).
    destruct (HA j Hjl) as (q & Hq). unfold chosen. rewrite Hq. unfold buffer. destruct HM' as (-> & _). destruct HM as (-> & _). reflexivity. }
  destruct (kem_run C mem g cs stk rqs lock fds pos st _ _ _ (run s w) HM' AG) as (thr & E & Hrel).
  specialize (HTT (s1 ++ s1')). cbv zeta in HTT. rewrite E in HTT. cbn [w_mem w_thr] in HTT. destruct HTT as (_ & _ & Th).
  destruct (Th i me (call_with (chosen C cs rqs w i) c)) as (p & Hp & Hend & _); [rewrite N, Hmc; reflexivity|].
  destruct (run_mono s s1 s2 w i HM) as (A & _). destruct (A (HA i Hi)) as (q & Hq). pose proof (Hrel i _ p Hq Hp) as Ep. cbn in Ep. subst q.
  unfold result. rewrite Hq. apply Hend. rewrite count_occ_app, (Hc i Hi). lia.
Qed.

(** Fair schedules. *)
Variable f : nat -> nat * answer.
Hypothesis Fair : forall i n, (i < length cs)%nat -> exists m, (n <= m)%nat /\ fst (f m) = i.
Definition seg (n l : nat) : list (nat * answer) := map f (seq n l).
Lemma seg_add n a b : seg n (a + b) = seg n a ++ seg (n + a) b.
Proof. unfold seg. rewrite seq_app, map_app. reflexivity. Qed.
Lemma seg_one N : (N <= length cs)%nat -> forall n, exists l, forall i, (i < N)%nat -> (1 <= turns i (seg n l))%nat.
Proof.
  induction N as [|N IH]; intros HN n; [exists O; lia|]. destruct (IH ltac:(lia) n) as (l & Hl). destruct (Fair N (n + l)%nat ltac:(lia)) as (m & Hm & Em).
  exists (l + (m - (n + l) + 1))%nat. intros i Hi. rewrite seg_add, turns_app. destruct (Nat.eq_dec i N) as [->|Hn].
  - assert (1 <= turns N (seg (n + l) (m - (n + l) + 1)))%nat; [|lia]. unfold turns. apply count_occ_In. apply in_map_iff. exists (f m). split; [exact Em|]. apply in_map. apply in_seq. lia.
  - pose proof (Hl i ltac:(lia)). lia.
Qed.
Lemma seg_many K n : exists l, forall i, (i < length cs)%nat -> (K <= turns i (seg n l))%nat.
Proof.
  induction K as [|K (l & Hl)]; [exists O; lia|]. destruct (seg_one (length cs) (Nat.le_refl _) (n + l)%nat) as (l' & Hl').
  exists (l + l')%nat. intros i Hi. rewrite seg_add, turns_app. pose proof (Hl i Hi). pose proof (Hl' i Hi). lia.
Qed.
Hypothesis Good : exists n, forall m, (n <= m)%nat -> good_answer (snd (f m)).
Theorem all_return : exists N, forall n i, (N <= n)%nat -> (i < length cs)%nat ->
  result (run (map f (seq 0 n)) (begin C mem g cs stk rqs lock fds pos)) i = Some (ret 0).
Proof.
  destruct Good as (n0 & HG). set (w0 := begin C mem g cs stk rqs lock fds pos).
  assert (HM0 : simm [] [] w0) by (apply sim_start; [exact HLn|reflexivity]).
  destruct (seg_many (Z.to_nat (pkBytes (cP C)) + 1) 0) as (l0 & Hl0). set (n1 := (l0 + n0)%nat).
  assert (HN1 : no_before (run (seg 0 n1) w0)).
  { intros i Hi. apply (reach_request _ [] [] w0 i (Z.to_nat (pkBytes (cP C))) HM0 Hi).
    - intros p k. unfold w0, begin. cbn [x_thr]. rewrite nth_error_map. destruct (nth_error cs i) as [[me c]|]; [|discriminate]. cbn [option_map]. intros E. injection E as E.
      destruct c as [pk sk|ct ss pk|ss ct sk]; cbn in E; [injection E as <- _; constructor|injection E as <- _; apply short_load|discriminate].
    - unfold n1. rewrite seg_add, turns_app. pose proof (Hl0 i Hi). lia. }
  destruct (sim_exec C st mem g cs stk pos rqs _ HRq HDs HLn HIn (seg 0 n1) [] [] w0 HM0) as (x1 & y1 & HM1).
  assert (GS : forall n l, (n0 <= n)%nat -> good_sched (seg n l)).
  { intros n l Hn ia Hia. apply in_map_iff in Hia. destruct Hia as (m & <- & Hm). apply in_seq in Hm. apply HG. lia. }
  set (top := fold_right Z.max 0 (map snd rqs)).
  assert (HTop : forall i a n, nth_error rqs i = Some (a, n) -> n <= top).
  { intros i a n H. apply nth_error_In in H. unfold top. clear - H. induction rqs as [|[b m] l IH]; [destruct H|]. cbn [map snd fold_right]. destruct H as [E|H]; [injection E as -> ->; lia|specialize (IH H); lia]. }
  destruct (seg_many 1 n1) as (l1 & Hl1). destruct (seg_many 4 (n1 + l1)) as (l2 & Hl2). destruct (seg_many (Z.to_nat (3 * top + 6)) (n1 + l1 + l2)) as (l3 & Hl3).
  destruct (seg_many 1 (n1 + l1 + l2 + l3)) as (l4 & Hl4).
  assert (HAf : forall i, (i < length cs)%nat -> after (run (seg 0 (n1 + (l1 + (l2 + (l3 + l4))))) w0) i).
  { rewrite seg_add, xexec_app. cbn [Nat.add]. rewrite (seg_add n1), (seg_add (n1 + l1)), (seg_add (n1 + l1 + l2)).
    apply (reach_after _ x1 y1); try (apply GS; unfold n1; lia); [exact HM1|exact HN1|].
    intros i Hi. split; [apply Hl1, Hi|]. split; [apply Hl2, Hi|]. split; [apply Hl4, Hi|]. intros a n Ha. pose proof (HTop i a n Ha). pose proof (Hl3 i Hi). lia. }
  set (n2 := (n1 + (l1 + (l2 + (l3 + l4))))%nat) in *.
  destruct (sim_exec C st mem g cs stk pos rqs _ HRq HDs HLn HIn (seg 0 n2) [] [] w0 HM0) as (x2 & y2 & HM2).
  destruct (reach_end x2 y2 _ HM2 HAf) as (T & HT). destruct (seg_many T n2) as (l5 & Hl5).
  exists (n2 + l5)%nat. intros n i Hn Hi. change (map f (seq 0 n)) with (seg 0 n). replace n with (n2 + (l5 + (n - n2 - l5)))%nat by lia.
  rewrite seg_add, xexec_app. apply HT; [exact Hi|]. rewrite seg_add, turns_app. pose proof (Hl5 i Hi). cbn [Nat.add]. lia.
Qed.
End Live.

(** In every infinite schedule that gives every thread turns again and again, and in which from
    some moment on open() succeeds and read() gives at least one byte, all calls return. *)
Theorem C41_returns : forall C mem g cs stk rqs lock fds pos st (f : nat -> nat * answer), setting C mem cs stk rqs lock fds st ->
  (forall i n, (i < length cs)%nat -> exists m, (n <= m)%nat /\ fst (f m) = i) ->
  (exists n, forall m, (n <= m)%nat -> succeeds (snd (f m))) ->
  exists N, forall n i, (N <= n)%nat -> (i < length cs)%nat ->
    result (xexec st rqs (map f (seq 0 n)) (begin C mem g cs stk rqs lock fds pos)) i = Some (ret 0).
Proof. intros C mem g cs stk rqs lock fds pos st f HS HF HG. exact (all_return C mem g cs stk rqs lock fds pos st HS f HF HG). Qed.
Print Assumptions C41_returns.

(** ** A case that meets the hypotheses: the three threads of C33, and a schedule that serves
    them in turn where the first hundred system calls fail and reads give 5 bytes. *)
Definition cs3a : list (Z * acall) := [(1, ADec 0 1000 50000); (2, AEnc 90000 106000 20000); (3, AKeyPair 110000 130000)].
Example C41_hyps : setting C976 mem3 cs3a (zrep 200 0) [(0, 0); (0, 24); (100, 64)] (-1) [] (fun p => (p * p + 7) mod 256).
Proof.
  destruct C33_hyps as (_ & _ & H3 & H4 & H5).
  assert (L : zlen mem3 = 200000) by (apply zlen_ztab; lia).
  assert (Bm : bytes_ok mem3) by (apply inrange_ztab; intros; apply mod256).
  assert (Epk : pkBytes (cP C976) = 15632) by reflexivity. assert (Esk : skBytes (cP C976) = 31296) by reflexivity.
  assert (Ect : ctBytes (cP C976) = 15744) by reflexivity. assert (ECB : pCB (cP C976) = 24) by reflexivity. assert (Emu : bytesMu (cP C976) = 24) by reflexivity.
  revert L Bm. generalize mem3. intros M L Bm.
  split; [exact H3|]. split; [exact H4|]. split; [exact H5|]. split; [|split; [|split; [|split; [|split]]]].
  - intros [|[|[|i]]] me c E; cbn in E; try (destruct i; discriminate); injection E as <- <-; unfold placed, region, disjoint; cbv zeta; rewrite ?Epk, ?Esk, ?Ect, ?ECB, ?L.
    + split; [lia|]. split; [apply inrange_zslice; exact Bm|]. split; [reflexivity|]. split; [lia|]. split; [apply inrange_zslice; exact Bm|lia].
    + split; [lia|]. split; [apply inrange_zslice; exact Bm|]. lia.
    + lia.
  - intros i k a b Hn Ea Eb.
    destruct i as [|[|[|i]]]; cbn in Ea; try (destruct i; discriminate); injection Ea as <-; intros o n o' n' I1 I2;
      destruct k as [|[|[|k]]]; cbn in Eb; try (destruct k; discriminate); injection Eb as <-; try congruence;
      cbn [writes inputs app In call_with snd] in I1, I2; rewrite ?Epk, ?Esk, ?Ect, ?ECB in I1, I2;
      repeat destruct I1 as [I1|I1]; try contradiction; injection I1 as <- <-;
      repeat destruct I2 as [I2|I2]; try contradiction; injection I2 as <- <-; unfold disjoint; change (cP C976) with frodo976 in *; rewrite ?Epk, ?Esk, ?Ect, ?ECB; lia.
  - reflexivity.
  - assert (LS : zlen (zrep 200 0) = 200) by (apply zlen_zrep; lia). split.
    + intros [|[|[|i]]] a n E; cbn in E; try (destruct i; discriminate); injection E as <- <-; (split; [lia|]); split; rewrite ?LS; lia.
    + intros [|[|[|i]]] [|[|[|j]]] a n b m Hij E F; cbn in E, F; try discriminate; try congruence; try (destruct i; discriminate); try (destruct j; discriminate); injection E as <- <-; injection F as <- <-; unfold disjoint; lia.
  - split; [left; reflexivity|intros []].
  - intros p. apply mod256.
Qed.
Example C41_fair :
  let f (n : nat) := ((n mod 3)%nat, {| an_open := if (n <? 100)%nat then None else Some 3%nat; an_read := if (n <? 100)%nat then RErr else RGive 5 |}) in
  (forall i n, (i < length cs3a)%nat -> exists m, (n <= m)%nat /\ fst (f m) = i) /\
  (exists n, forall m, (n <= m)%nat -> succeeds (snd (f m))).
Proof.
  split.
  - intros i n Hi. cbn [length cs3a] in Hi. exists (3 * n + i)%nat. split; [lia|]. cbn [fst]. rewrite Nat.add_comm, Nat.mul_comm, Nat.mod_add by lia. apply Nat.mod_small. exact Hi.
  - exists 100%nat. intros m Hm. cbn [snd]. assert (E : (m <? 100)%nat = false) by (apply Nat.ltb_ge; exact Hm). rewrite E.
    split; [discriminate|]. exists 5. split; [reflexivity|lia].
Qed.
