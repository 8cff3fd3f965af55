(** Property C53, calls that take their random bytes from random.c (Unix): what an interruption
    leaves behind when some threads still wait for theirs. *)
From Verif Require Import CSem Params FrodoSpec Macrify Kem KemWp FrodoFacts PropKem Conc ConcProofs ConcKem PackProgProofs ConcKemProofs PropConcKem CrashProofs PropCrash
  Random ConcRandom ConcRandomProofs PropConcRandom ConcLib ConcLibProofs PropConcLib.

(** Thread i has its random bytes, or needs none. *)
Definition supplied (w : xworld) (i : nat) : Prop := exists p, nth_error (x_thr w) i = Some (After p).

Section Wait.
Variables (C : config) (mem : list Z) (g : Z) (cs : list (Z * acall)) (stk : list Z) (rqs : list (Z * Z)) (lock : Z) (fds : list Z) (pos : Z) (st : Z -> Z).
Hypothesis HS : setting C mem cs stk rqs lock fds st.
Notation simm := (sim C st mem g cs rqs (start stk lock fds pos rqs)).
Let turn_sim := sim_turn C st mem g cs stk pos rqs (start stk lock fds pos rqs)
  (set_req C mem cs stk rqs lock fds st HS) (set_dis C mem cs stk rqs lock fds st HS) (set_len C mem cs stk rqs lock fds st HS) (set_inv C mem cs stk rqs lock fds pos st HS).

(** A store of a supplied thread is to one of its outputs. *)
Lemma stores_own s1 s2 w i a v k : simm s1 s2 w -> nth_error (x_thr w) i = Some (After (St a v k)) ->
  exists me c, nth_error cs i = Some (me, c) /\ 0 <= a < zlen (x_mem w) /\ within (writes C (call_with [] c)) a.
Proof.
  intros HM Hp. set (r := chosen C cs rqs w).
  assert (HF : fits C cs r) by (intros j me c Hj; exact (chosen_ok C mem g cs stk rqs lock fds pos st HS s1 s2 w j me c HM Hj)).
  destruct (kem_run C mem g cs stk rqs lock fds pos st r s1 s2 w HM (agrees_chosen C cs rqs w)) as (thr & E & Hrel).
  destruct (calls_fit C mem cs stk rqs lock fds st HS _ HF) as (HP & HA). destruct (programs_map C r cs) as (_ & N).
  pose proof HS as (V & Hb & Hre & _). assert (Hc : exists me c, nth_error cs i = Some (me, c)).
  { destruct (nth_error cs i) as [[me c]|] eqn:Ec; [eauto|]. apply nth_error_None in Ec. destruct HM as (_ & L & _). rewrite <- L in Ec. apply nth_error_None in Ec. congruence. }
  destruct Hc as (me & c & Hc).
  exists me, c. split; [exact Hc|]. set (cs' := calls_of r cs) in *. set (Ps := map (fun mc => program C (fst mc) (snd mc)) cs') in *.
  set (W := fun i a => exists me c, nth_error cs' i = Some (me, c) /\ within (writes C c) a).
  set (R := fun i a => exists me c, nth_error cs' i = Some (me, c) /\ within (writes C c ++ inputs C c) a).
  assert (HO : forall i p, nth_error Ps i = Some p -> obeys (R i) (W i) p mem).
  { intros j p Ej. unfold Ps in Ej. rewrite nth_error_map in Ej. destruct (nth_error cs' j) as [[me' c']|] eqn:Ec; [|discriminate]. injection Ej as <-.
    destruct (HP j me' c' Ec) as (outs & Hpr). destruct (call_alone C me' mem c' outs V Hb Hre Hpr) as (O & _).
    eapply obeys_mono; [| |exact O]; intros b Hb'; exists me', c'; auto. }
  assert (HD : forall i k a, i <> k -> W i a -> R k a -> False).
  { intros j l b Hn (m1 & x & Ex & (o & n & I1 & H1)) (m2 & y & Ey & (o' & n' & I2 & H2)).
    assert (D : disjoint o n o' n').
    { apply (HA j l x y Hn); [rewrite nth_error_map, Ex; reflexivity|rewrite nth_error_map, Ey; reflexivity|exact I1|exact I2]. }
    unfold disjoint in D. lia. }
  destruct (trail_exec Z Ps R W mem g HO HD s1) as (LW & _ & Th). rewrite E in LW, Th. cbn [w_thr w_mem] in LW, Th.
  assert (Hi' : nth_error cs' i = Some (me, call_with (r i) c)) by (rewrite N, Hc; reflexivity).
  destruct (Th i (program C me (call_with (r i) c))) as (n & p' & m1 & Hp' & _ & Lm & Ob & _); [unfold Ps; rewrite nth_error_map, Hi'; reflexivity|].
  pose proof (Hrel i _ p' Hp Hp') as Ep. cbn in Ep. subst p'. cbn [obeys] in Ob. destruct Ob as (Hin & (m2 & c2 & E2 & HW) & _).
  rewrite Hi' in E2. injection E2 as <- <-. destruct (writes_with C (r i) c) as (Ew & _). rewrite Ew in HW. split; [|exact HW]. apply in_mem_true in Hin. lia.
Qed.

(** The outputs of a thread that waits for its random bytes are untouched. *)
Definition waiting_ok (w : xworld) : Prop :=
  (forall i p k, nth_error (x_thr w) i = Some (Before p k) -> exists m, short m p) /\
  forall i me c, nth_error cs i = Some (me, c) -> ~ supplied w i ->
    forall a, within (writes C (call_with [] c)) a -> znth (x_mem w) a = znth mem a.
Lemma nth_set_ph l : forall i j ph, nth_error (set_ph l i ph) j = if Nat.eqb i j then (match nth_error l j with Some _ => Some ph | None => None end) else nth_error l j.
Proof. induction l as [|x l IH]; intros [|i] [|j] ph; cbn; try reflexivity; [destruct (Nat.eqb i j); reflexivity|apply IH]. Qed.
Lemma waiting_turn s1 s2 w ia : simm s1 s2 w -> waiting_ok w -> waiting_ok (xturn st rqs ia w).
Proof.
  intros HM (Hsh & Hw). destruct ia as [i an]. 
  assert (KEEP : forall ph, (exists q, nth_error (x_thr w) i = Some q /\ (forall p k, ph = Before p k -> exists m, short m p) /\ ((exists p, q = After p) -> exists p, ph = After p)) ->
     forall mem' g' rng, (forall j me c, j <> i -> nth_error cs j = Some (me, c) -> forall a, within (writes C (call_with [] c)) a -> znth mem' a = znth (x_mem w) a) ->
       ((exists p, ph = After p) \/ mem' = x_mem w) -> waiting_ok (mkx mem' g' (set_ph (x_thr w) i ph) rng)).
  { intros ph (q & Hq & Hp & Hs) mem' g' rng Fr Own. split; cbn [x_thr x_mem].
    - intros j p k. rewrite nth_set_ph. destruct (Nat.eqb_spec i j) as [->|Hn]; [rewrite Hq; intros X; injection X as ->; eauto|apply Hsh].
    - intros j me c Hj Hns a Ha. unfold supplied in Hns. cbn [x_thr] in Hns. rewrite nth_set_ph in Hns. destruct (Nat.eqb_spec i j) as [->|Hn].
      + rewrite Hq in Hns. destruct Own as [(p & ->)| ->]; [destruct Hns; eauto|]. apply (Hw j me c Hj); [|exact Ha].
        intros (p & Ep). apply Hns. rewrite Hq in Ep. injection Ep as ->. destruct Hs as (p1 & ->); eauto.
      + rewrite (Fr j me c ltac:(congruence) Hj a Ha). exact (Hw j me c Hj Hns a Ha). }
  unfold xturn. cbn [fst]. destruct (nth_error (x_thr w) i) as [ph|] eqn:Ei; [|split; assumption].
  destruct ph as [p k|k|p].
  - destruct (Hsh i p k Ei) as (m & Sp). destruct Sp as [m x|m e|m ad kk Hk].
    + apply KEEP; auto. exists (Before (Ret x) k). split; [reflexivity|]. split; [discriminate|]. intros (p & X); discriminate.
    + cbn [step]. apply KEEP; auto. exists (Before (Fault e) k). split; [reflexivity|]. split; [|intros (p & X); discriminate].
      intros p k' X. injection X as <- _. exists 0%nat. constructor.
    + cbn [step]. destruct (in_mem (x_mem w) ad); apply KEEP; auto; exists (Before (Ld ad kk) k); (split; [reflexivity|]); (split; [|intros (p & X); discriminate]); intros p k' X; injection X as <- _;
        [exists m; apply Hk|exists 0%nat; constructor].
  - assert (SAME : waiting_ok (mkx (x_mem w) (x_g w) (x_thr w) (rturn st (i, an) (x_rng w)))) by (split; [exact Hsh|exact Hw]).
    assert (AFT : forall p, waiting_ok (mkx (x_mem w) (x_g w) (set_ph (x_thr w) i (After p)) (x_rng w))).
    { intros p. apply KEEP; auto. exists (Asking k). split; [reflexivity|]. split; [discriminate|]. intros (q & X); discriminate. }
    destruct (nth_error (rw_calls (x_rng w)) i) as [c0|]; [|split; assumption]. destruct (nth_error rqs i) as [[b n]|]; [|split; assumption].
    destruct (rc_pc c0); auto.
  - assert (ST : forall a v kk, p = St a v kk -> forall j me c, j <> i -> nth_error cs j = Some (me, c) -> forall b, within (writes C (call_with [] c)) b -> znth (zset (x_mem w) a v) b = znth (x_mem w) b).
    { intros a v kk -> j me c Hji Hj b Hbw. destruct (stores_own s1 s2 w i a v kk HM Ei) as (me' & c' & Hc' & Ha & HW). apply znth_zset_ne; [exact Ha|]. intros Eab.
      pose proof HS as (_ & _ & _ & _ & Hap & _). destruct HW as (o & n & I1 & H1). destruct Hbw as (o' & n' & I2 & H2).
      assert (D : disjoint o n o' n').
      { apply (Hap i j (call_with [] c') (call_with [] c)); [congruence|rewrite nth_error_map, Hc'; reflexivity|rewrite nth_error_map, Hj; reflexivity|exact I1|apply in_or_app; left; exact I2]. }
      unfold disjoint in D. lia. }
    destruct p as [x|e|a kk|a v kk|kk|v kk]; cbn [step];
      try (destruct (in_mem (x_mem w) a) eqn:Ein); apply KEEP; eauto; eexists; (split; [reflexivity|]); (split; [discriminate|]); eauto.
Qed.
Lemma waiting_run sched : exists s1 s2, simm s1 s2 (xexec st rqs sched (begin C mem g cs stk rqs lock fds pos)) /\
  waiting_ok (xexec st rqs sched (begin C mem g cs stk rqs lock fds pos)).
Proof.
  assert (K : forall s w, (exists s1 s2, simm s1 s2 w) -> waiting_ok w -> (exists s1 s2, simm s1 s2 (xexec st rqs s w)) /\ waiting_ok (xexec st rqs s w)).
  { induction s as [|ia s IH]; intros w (s1 & s2 & HM) Hw; [split; [eauto|exact Hw]|]. cbn [xexec fold_left]. fold (xexec st rqs s (xturn st rqs ia w)).
    destruct (turn_sim s1 s2 w ia HM) as (s1' & s2' & HM' & _). apply IH; [eauto|]. eapply waiting_turn; eassumption. }
  destruct (K sched (begin C mem g cs stk rqs lock fds pos)) as ((s1 & s2 & A) & B).
  - exists [], []. apply sim_start; [exact (set_len C mem cs stk rqs lock fds st HS)|reflexivity].
  - split; cbn [begin x_thr x_mem]; [|reflexivity]. intros i p k E. rewrite nth_error_map in E. destruct (nth_error cs i) as [[me []]|]; cbn in E; try discriminate; injection E as <- _.
    + exists 0%nat. constructor.
    + exists (Z.to_nat (pkBytes (cP C))). apply short_load.
  - eauto.
Qed.
End Wait.

(** Any number of threads, each making one call of the API with the library's random.c, stopped
    after any schedule, whatever the operating system answered.  A thread that has not got its
    random bytes has changed nothing; the outputs of the others are as orderly as with random bytes
    given in advance, these being bytes of the device's stream at increasing positions, no byte
    twice, neither in one call nor in two; and nothing else has changed. *)
Theorem C53_library : forall C mem g cs stk rqs lock fds pos st sched, setting C mem cs stk rqs lock fds st ->
  let w := xexec st rqs sched (begin C mem g cs stk rqs lock fds pos) in
  zlen (x_mem w) = zlen mem /\
  (forall a, (forall i me c, nth_error cs i = Some (me, c) -> supplied w i -> ~ within (writes C (call_with [] c)) a) -> znth (x_mem w) a = znth mem a) /\
  exists src : nat -> Z -> Z,
    (forall i me c, nth_error cs i = Some (me, c) -> supplied w i ->
       (forall k, 0 <= k < need C c -> pos <= src i k < rw_pos (x_rng w)) /\
       (forall k l, 0 <= k < l -> l < need C c -> src i k < src i l) /\
       orderly C mem (x_mem w) (call_with (ztab (need C c) (fun k => st (src i k))) c)) /\
    (forall i j me me' c d, i <> j -> nth_error cs i = Some (me, c) -> nth_error cs j = Some (me', d) -> supplied w i -> supplied w j ->
       forall k l, 0 <= k < need C c -> 0 <= l < need C d -> src i k <> src j l).
Proof.
  intros C mem g cs stk rqs lock fds pos st sched HS w. destruct (waiting_run C mem g cs stk rqs lock fds pos st HS sched) as (s1 & s2 & HM & (_ & Hw)). fold w in HM, Hw.
  assert (HF : fits C cs (chosen C cs rqs w)) by (intros i me c Hi; exact (chosen_ok C mem g cs stk rqs lock fds pos st HS s1 s2 w i me c HM Hi)).
  destruct (kem_run C mem g cs stk rqs lock fds pos st (chosen C cs rqs w) s1 s2 w HM (agrees_chosen C cs rqs w)) as (thr & E & Hrel).
  destruct (calls_fit C mem cs stk rqs lock fds st HS _ HF) as (HP & HA). set (cs' := calls_of (chosen C cs rqs w) cs) in *.
  assert (N : forall i, nth_error cs' i = option_map (fun mc => (fst mc, call_with (chosen C cs rqs w i) (snd mc))) (nth_error cs i)) by apply (programs_map C).
  pose proof HS as (V & Hb & Hre & Hpl & Hap & _). pose proof (C53_threads C mem g cs' V Hb Hre HP HA s1) as HT. cbv zeta in HT. rewrite E in HT. cbn [w_mem] in HT.
  destruct HT as (LM & Out & Ord). split; [exact LM|].
  assert (DEC : forall i, supplied w i \/ ~ supplied w i).
  { intros i. unfold supplied. destruct (nth_error (x_thr w) i) as [[| |p]|]; [right; intros (? & X); discriminate|right; intros (? & X); discriminate|left; eauto|right; intros (? & X); discriminate]. }
  assert (WD : forall l a, within l a \/ ~ within l a).
  { induction l as [|[o n] l IH]; intros a; [right; intros (? & ? & [] & _)|]. destruct (IH a) as [(o' & n' & I1 & I2)|Hn]; [left; exists o', n'; split; [right; exact I1|exact I2]|].
    destruct (Z_le_dec o a), (Z_lt_dec a (o + n)); try (left; exists o, n; split; [left; reflexivity|lia]); right; intros (o' & n' & [I1|I1] & I2); try (injection I1 as <- <-; lia); apply Hn; exists o', n'; auto. }
  split.
  { intros a Ha.
    assert (FIN : forall n, (exists i me c, nth_error cs i = Some (me, c) /\ within (writes C (call_with [] c)) a) \/
        (forall i me c, (i < n)%nat -> nth_error cs i = Some (me, c) -> ~ within (writes C (call_with [] c)) a)).
    { induction n as [|n [IH|IH]]; [right; lia|left; exact IH|]. destruct (nth_error cs n) as [[me c]|] eqn:En.
      - destruct (WD (writes C (call_with [] c)) a) as [Y|Y]; [left; eauto|right]. intros i me' c' Hi Hc. destruct (Nat.eq_dec i n) as [->|]; [rewrite En in Hc; injection Hc as <- <-; exact Y|].
        apply (IH i me' c'); [lia|exact Hc].
      - right. intros i me' c' Hi Hc. apply (IH i me' c'); [|exact Hc]. destruct (Nat.eq_dec i n) as [->|]; [congruence|lia]. }
    destruct (FIN (length cs)) as [(i & me & c & Hi & HW)|Hno].
    - destruct (DEC i) as [Hs|Hs]; [destruct (Ha i me c Hi Hs HW)|exact (Hw i me c Hi Hs a HW)].
    - apply Out. intros i me c Hi. rewrite N in Hi. destruct (nth_error cs i) as [[me0 c0]|] eqn:Ei; [|discriminate]. injection Hi as <- <-. cbn [fst snd].
      destruct (writes_with C (chosen C cs rqs w i) c0) as (-> & _). apply (Hno i me0 c0); [apply nth_error_Some; congruence|exact Ei]. }
  destruct (have_sources C mem g cs stk rqs lock fds pos st HS s1 s2 w HM) as (_ & src & Hsrc). exists src.
  assert (RET : forall i me c k, nth_error cs i = Some (me, c) -> supplied w i -> 0 <= k < need C c -> has_returned (x_rng w) i 0).
  { intros i me c k Hi (p & Hp) Hk.
    destruct (got C mem g cs stk rqs lock fds pos st HS s1 s2 w src i me c p HM Hsrc Hi Hp) as (_ & G). apply G. destruct c; try reflexivity. cbn in Hk. lia. }
  pose proof Hsrc as (A1 & A2 & A3). split.
  - intros i me c Hi Hs. destruct (has_req C mem cs stk rqs lock fds st HS i me c Hi) as (a0 & Ha0). split; [|split].
    + intros k Hk. apply (A1 i a0 _ Ha0 (RET i me c k Hi Hs Hk) k Hk).
    + intros k l H1 H2. apply (A2 i a0 _ Ha0 (RET i me c k Hi Hs ltac:(lia)) k l H1 H2).
    + pose proof Hs as (p & Hp). destruct (got C mem g cs stk rqs lock fds pos st HS s1 s2 w src i me c p HM Hsrc Hi Hp) as (Eb & _). rewrite <- Eb.
      assert (Ec : chosen C cs rqs w i = buffer rqs w i) by (unfold chosen; rewrite Hp; reflexivity). rewrite <- Ec.
      apply (Ord i me). rewrite N, Hi. reflexivity.
  - intros i j me me' c d Hij Hi Hj Hsi Hsj k l Hk Hl. destruct (has_req C mem cs stk rqs lock fds st HS i me c Hi) as (a & Ha). destruct (has_req C mem cs stk rqs lock fds st HS j me' d Hj) as (b & Hb').
    apply (A3 i j a _ b _ Hij Ha Hb' (RET i me c k Hi Hsi Hk) (RET j me' d l Hj Hsj Hl) k l Hk Hl).
Qed.
Print Assumptions C53_library.

(** If no call writes where it reads either, then whatever was done, the memory left behind has the
    arguments of every call in place and gives the outputs the memory at the start gave: the calls
    can be made again. *)
Theorem C53_library_again : forall C mem g cs stk rqs lock fds pos st sched, setting C mem cs stk rqs lock fds st ->
  (forall i me c o n o' n', nth_error cs i = Some (me, c) -> In (o, n) (writes C (call_with [] c)) -> In (o', n') (inputs C (call_with [] c)) -> disjoint o n o' n') ->
  let m := x_mem (xexec st rqs sched (begin C mem g cs stk rqs lock fds pos)) in
  forall i me c, nth_error cs i = Some (me, c) -> placed C m c /\ forall r, outputs C m c r = outputs C mem c r.
Proof.
  intros C mem g cs stk rqs lock fds pos st sched HS HI m i me c Hi. destruct (C53_library C mem g cs stk rqs lock fds pos st sched HS) as (L & Fr & _). fold m in L, Fr.
  pose proof HS as (V & _ & _ & Hpl & HA & _). specialize (Hpl i me c Hi).
  assert (IN : forall o n, In (o, n) (inputs C (call_with [] c)) -> region mem o n -> zslice m o n = zslice mem o n).
  { intros o n Hin (R1 & R2). destruct (Z.ltb_spec n 0) as [Hn|Hn]; [unfold zslice; replace (Z.to_nat n) with 0%nat by lia; reflexivity|].
    apply list_ext; [rewrite !zlen_zslice; lia|]. rewrite zlen_zslice by lia. intros k Hk. rewrite !znth_zslice by lia. apply Fr. intros j me' c' Hj _ (o' & n' & I1 & H1).
    assert (D : disjoint o' n' o n).
    { destruct (Nat.eq_dec j i) as [->|Hji].
      - rewrite Hi in Hj. injection Hj as <- <-. exact (HI i me c o' n' o n Hi I1 Hin).
      - apply (HA j i (call_with [] c') (call_with [] c) Hji); [rewrite nth_error_map, Hj; reflexivity|rewrite nth_error_map, Hi; reflexivity|exact I1|apply in_or_app; right; exact Hin]. }
    unfold disjoint in D. lia. }
  assert (Rg : forall o n, region mem o n -> region m o n) by (unfold region; intros; lia).
  destruct c as [pk sk|ct ss pk|ss ct sk]; unfold placed in Hpl |- *; cbv zeta in Hpl |- *; cbn [call_with inputs] in IN.
  - split; [|reflexivity]. destruct Hpl as (H1 & H2 & H3). auto.
  - destruct Hpl as (H1 & H2 & H3 & H4 & H5 & H6). assert (E := IN pk (pkBytes (cP C)) (or_introl eq_refl) H1). rewrite E. split; [auto 10|].
    intros r. unfold outputs. cbv zeta. rewrite E. reflexivity.
  - destruct Hpl as (H1 & H2 & H3 & H4 & H5 & H6).
    assert (E1 := IN sk (skBytes (cP C)) ltac:(cbn; auto) H1). assert (E2 := IN ct (ctBytes (cP C)) ltac:(cbn; auto) H4). rewrite E1, E2. split; [auto 10|].
    intros r. unfold outputs. cbv zeta. rewrite E1, E2. reflexivity.
Qed.
Print Assumptions C53_library_again.

Lemma device_shut C mem : exists p0 p1 k1 k2,
  x_thr (xexec (fun p => (p * p + 7) mod 256) [(0, 0); (0, 24); (100, 64)]
    [(2%nat, {| an_open := None; an_read := RErr |}); (2%nat, {| an_open := None; an_read := RErr |}); (2%nat, {| an_open := None; an_read := RErr |})]
    (begin C mem 0 cs3a (zrep 200 0) [(0, 0); (0, 24); (100, 64)] (-1) [] 0)) = [After p0; Before p1 k1; Asking k2].
Proof. eexists. eexists. eexists. eexists. reflexivity. Qed.
(** The hypotheses: the three threads of C41 ([C41_hyps]); the inputs of each are apart from its
    outputs.  In the schedule shown, where the device cannot be opened, the thread that decapsulates
    is supplied and the two others are not. *)
Example C53_library_hyps :
  (forall i me c o n o' n', nth_error cs3a i = Some (me, c) -> In (o, n) (writes C976 (call_with [] c)) -> In (o', n') (inputs C976 (call_with [] c)) -> disjoint o n o' n') /\
  let w := xexec (fun p => (p * p + 7) mod 256) [(0, 0); (0, 24); (100, 64)]
             [(2%nat, {| an_open := None; an_read := RErr |}); (2%nat, {| an_open := None; an_read := RErr |}); (2%nat, {| an_open := None; an_read := RErr |})]
             (begin C976 mem3 0 cs3a (zrep 200 0) [(0, 0); (0, 24); (100, 64)] (-1) [] 0) in
  supplied w 0 /\ ~ supplied w 1 /\ ~ supplied w 2.
Proof.
  split.
  - intros i me c o n o' n' E I1 I2. destruct i as [|[|[|i]]]; cbn in E; try (destruct i; discriminate); injection E as <- <-;
    assert (Epk : pkBytes (cP C976) = 15632) by reflexivity; assert (Esk : skBytes (cP C976) = 31296) by reflexivity;
    assert (Ect : ctBytes (cP C976) = 15744) by reflexivity; assert (ECB : pCB (cP C976) = 24) by reflexivity;
    cbn [writes inputs call_with In] in I1, I2; rewrite ?Epk, ?Esk, ?Ect, ?ECB in I1, I2;
    repeat destruct I1 as [I1|I1]; try contradiction; injection I1 as <- <-;
    repeat destruct I2 as [I2|I2]; try contradiction; injection I2 as <- <-; unfold disjoint; change (cP C976) with frodo976 in *; rewrite ?Epk, ?Esk, ?Ect, ?ECB; lia.
  - destruct (device_shut C976 mem3) as (p0 & p1 & k1 & k2 & T). unfold supplied. rewrite T. split; [exists p0; reflexivity|]. split; intros (p & X); discriminate.
Qed.
