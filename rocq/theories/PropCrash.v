(** Property C53: what an interrupted call leaves behind.

    A process can be stopped at any moment: a signal handler, a debugger or a crash dump sees the
    caller's memory as it is between two accesses, and so does a supervisor that restarts the
    call.  In ConcKem.v that is the memory after any number of actions of the calls; the actions
    come in the order of the statements of kem.c; those of frodo_pack, which clears its output and
    builds the bytes up from the top, in the order of util.c; shake and memcpy, which store each byte
    of an output once, from the first to the last. *)
From Verif Require Import CSem Params FrodoSpec Macrify Kem KemWp FrodoFacts PropKem Conc ConcProofs ConcKem PackProgProofs ConcKemProofs PropConcKem CrashProofs.

(** ** Every thread of a schedule is somewhere in its own run alone *)
Section Trail.
Variables (A : Type) (P : list (prog A)) (R W : nat -> Z -> Prop) (mem0 : list Z) (g0 : Z).
Hypothesis HO : forall i p, nth_error P i = Some p -> obeys (R i) (W i) p mem0.
Hypothesis HD : forall i j a, i <> j -> W i a -> R j a -> False.
Definition trail (w : world A) : Prop :=
  zlen (w_mem w) = zlen mem0 /\ w_g w = g0 /\
  forall i p, nth_error P i = Some p -> exists n p' m, nth_error (w_thr w) i = Some p' /\ after n p mem0 g0 = (p', m, g0) /\
    zlen m = zlen mem0 /\ obeys (R i) (W i) p' m /\ forall a, R i a -> znth (w_mem w) a = znth m a.
Lemma trail_turn w k : (forall i, nth_error (w_thr w) i = None <-> nth_error P i = None) -> trail w -> trail (turn k w).
Proof.
  intros Dom (L & G & Th). unfold turn. destruct (nth_error (w_thr w) k) as [pk|] eqn:Ek; [|split; [exact L|split; [exact G|exact Th]]].
  destruct (nth_error P k) as [p0|] eqn:E0; [|apply Dom in E0; congruence].
  destruct (Th k p0 E0) as (n & p' & m & Ek' & Ea & Lm & Ob & Ag). rewrite Ek in Ek'. injection Ek' as <-.
  assert (S : exists p1 m1 memv, step pk (w_mem w) (w_g w) = (p1, memv, g0) /\ step pk m g0 = (p1, m1, g0) /\ zlen memv = zlen mem0 /\ zlen m1 = zlen mem0 /\
     obeys (R k) (W k) p1 m1 /\ (forall a, R k a -> znth memv a = znth m1 a) /\ (forall a, ~ W k a -> znth memv a = znth (w_mem w) a)).
  { rewrite G. destruct pk as [a|e|a kk|a v kk|kk|v kk]; cbn [step obeys] in *.
    - exists (Ret a), m, (w_mem w). auto 8.
    - exists (Fault e), m, (w_mem w). auto 8.
    - destruct Ob as (Hin & HR & Ok). rewrite (in_mem_len (w_mem w) m) by lia. rewrite Hin. exists (kk (znth m a)), m, (w_mem w). rewrite (Ag a HR). auto 8.
    - destruct Ob as (Hin & HW & Ok). rewrite (in_mem_len (w_mem w) m) by lia. rewrite Hin. apply in_mem_true in Hin.
      exists kk, (zset m a v), (zset (w_mem w) a v). split; [reflexivity|]. split; [reflexivity|]. split; [now rewrite zlen_zset|]. split; [now rewrite zlen_zset|]. split; [exact Ok|]. split.
      + intros b Hb. destruct (Z.eq_dec a b) as [<-|Hn]; [rewrite !znth_zset_eq by lia; reflexivity|rewrite !znth_zset_ne by lia; auto].
      + intros b Hb. apply znth_zset_ne; [lia|]. intros ->. contradiction.
    - contradiction.
    - contradiction. }
  destruct S as (p1 & m1 & memv & E1 & E2 & L1 & L2 & Ob' & Ag' & Fr). rewrite E1. split; [exact L1|]. split; [reflexivity|]. cbn [w_mem w_g w_thr].
  intros i p Hp. destruct (Nat.eq_dec k i) as [<-|Hn].
  - rewrite E0 in Hp. injection Hp as <-. exists (Datatypes.S n), p1, m1. split; [exact (nth_set_eq _ _ _ pk Ek)|]. split; [|auto].
    rewrite after_last, Ea. exact E2.
  - destruct (Th i p Hp) as (n' & q & m' & Hq & Ea' & Lm' & Ob2 & Ag2). exists n', q, m'. split; [rewrite nth_set_ne by exact Hn; exact Hq|]. split; [exact Ea'|]. split; [exact Lm'|]. split; [exact Ob2|].
    intros a Ha. rewrite Fr; [auto|]. intros HW. exact (HD k i a Hn HW Ha).
Qed.
Lemma dom_turn (w : world A) k i : nth_error (w_thr (turn k w)) i = None <-> nth_error (w_thr w) i = None.
Proof.
  unfold turn. destruct (nth_error (w_thr w) k) as [pk|] eqn:Ek; [|reflexivity]. destruct (step pk (w_mem w) (w_g w)) as [[p1 m1] g1]. cbn [w_thr].
  destruct (Nat.eq_dec k i) as [<-|Hn]; [rewrite (nth_set_eq _ _ _ pk Ek); split; intros; congruence|rewrite nth_set_ne by exact Hn; reflexivity].
Qed.
Lemma trail_exec sched : trail (exec sched (mkw mem0 g0 P)).
Proof.
  assert (K : forall s w, (forall i, nth_error (w_thr w) i = None <-> nth_error P i = None) -> trail w -> trail (exec s w)).
  { induction s as [|k s IH]; intros w Dom H; [exact H|]. cbn [exec fold_left]. apply IH; [|apply trail_turn; assumption]. intros i. rewrite dom_turn. apply Dom. }
  apply K; [reflexivity|]. split; [reflexivity|]. split; [reflexivity|]. intros i p Hp. exists 0%nat, p, mem0. cbn [w_thr w_mem after]. split; [exact Hp|]. split; [reflexivity|]. split; [reflexivity|].
  split; [exact (HO i p Hp)|reflexivity].
Qed.
End Trail.

(** ** The calls of the API write their outputs in order, each byte once *)
Definition early_len (C : config) (c : call) : Z :=
  match c with KeyPair _ _ _ => pkBytes (cP C) | Enc _ _ _ _ => ctBytes (cP C) | Dec _ _ _ => 0 end.
Lemma call_order C me mem c outs : valid (cP C) -> build_ok C -> prescribed C mem c outs -> forall g,
  rising (place 0 (writes C c)) (early_len C c) 0 (program C me c) mem g /\
  exists mem' g', solo (program C me c) mem g = (ret 0, mem', g') /\ forall a x, In (a, x) outs -> holds mem' a (zlen x) x.
Proof.
  intros V Hb Hp g. set (P := cP C).
  assert (HSZ : 0 < pN P /\ 0 < pCB P /\ 0 < pD P * pN P) by (destruct (sizes C V) as (? & ? & ? & ? & ? & ? & ? & ?); auto).
  destruct Hp as [rb rc pk sk s seedSE z P0 Hs Hse Hz Hrb Hpk Hsk Hd|rb rc ct ss pk PK mu P0 Hmu Hrb Hpk BPK Hct Hss Hd Hd2|ss ct sk CT SK P0 Hsk BSK Hal Hct BCT Hss]; subst P0.
  - pose proof (C05_keypair C rb rc mem pk sk s seedSE z V Hs Hse Hz Hrb Hpk Hsk Hd) as H.
    pose proof (KeyGen_parts P (cGen C) V s seedSE z (proj1 Hs)) as K. fold P in H |- *.
    destruct (KeyGen P (cGen C) s seedSE z) as [PK SK]. destruct H as (l & t & E). destruct K as (L1 & _ & L2 & _).
    destruct (keypair_order C me HSZ rb mem pk sk Hd _ _ E g) as (O & bv & mem' & g' & S & (E1 & E2)). cbn [fst snd] in E1, E2. subst bv mem'. split; [exact O|].
    eexists. exists g'. split; [exact S|]. cbn [fst snd In]. fold P in Hpk, Hsk, Hd. rewrite <- L1 in Hpk, Hd. rewrite <- L2 in Hsk, Hd.
    destruct (holds_stored2 mem pk PK sk SK Hpk Hsk Hd) as (Q1 & Q2).
    intros a x [Ex|[Ex|[]]]; injection Ex as <- <-; assumption.
  - pose proof (C05_enc C rb rc mem ct ss pk PK mu V Hb Hmu Hrb Hpk BPK Hct Hss Hd) as H.
    pose proof (Encaps_shape P (cGen C) V PK mu) as K. fold P in H |- *.
    destruct (Encaps P (cGen C) PK mu) as [CT SS]. destruct H as (l & t & E). destruct K as (L1 & _ & L2 & _).
    destruct (enc_order C me HSZ rb mem ct ss pk Hd2 _ _ E g) as (O & bv & mem' & g' & S & (E1 & E2)). cbn [fst snd] in E1, E2. subst bv mem'. split; [exact O|].
    eexists. exists g'. split; [exact S|]. cbn [fst snd In]. fold P in Hct, Hss, Hd2. rewrite <- L1 in Hct, Hd2. rewrite <- L2 in Hss, Hd2.
    destruct (holds_stored2 mem ct CT ss SS Hct Hss Hd2) as (Q1 & Q2).
    intros a x [Ex|[Ex|[]]]; injection Ex as <- <-; assumption.
  - destruct (C05_dec C mem ss ct sk CT SK V Hb Hsk BSK Hal Hct BCT Hss) as (l & t & E). fold P in E |- *.
    assert (L1 : zlen (Decaps P (cGen C) SK CT) = pCB P).
    { unfold Decaps. destruct (Encrypt _ _ _ _ _ _) as [[? ?] ?]. apply (F_zlen_Hash P (cGen C) V); lia. }
    destruct (dec_order C me mem ss ct sk _ _ E g) as (O & bv & mem' & g' & S & (E1 & E2)). cbn [fst snd] in E1, E2. subst bv mem'. split; [exact O|].
    eexists. exists g'. split; [exact S|]. cbn [In]. fold P in Hss. rewrite <- L1 in Hss.
    intros a x [Ex|[]]; injection Ex as <- <-. now apply holds_stored.
Qed.

(** The ranks of the outputs: those of an earlier one are below those of a later one. *)
Lemma out_ranks C mem c early a x : valid (cP C) -> prescribed C mem c (early ++ [(a, x)]) ->
  (forall k, 0 <= k < zlen x -> 0 <= place 0 (writes C c) (a + k) /\ early_len C c <= place 0 (writes C c) (a + k)) /\
  (forall k b y j, 0 <= k < zlen x -> In (b, y) early -> 0 <= j < zlen y -> 0 <= place 0 (writes C c) (b + j) < place 0 (writes C c) (a + k)) /\
  (forall k, 0 <= k < zlen x -> within (writes C c) (a + k)) /\ (forall b y j, In (b, y) early -> 0 <= j < zlen y -> within (writes C c) (b + j)).
Proof.
  intros V Hp. pose proof (sizes C V) as (_ & _ & _ & HCB & _). set (outs := early ++ [(a, x)]) in Hp. assert (Eo : outs = early ++ [(a, x)]) by reflexivity. clearbody outs.
  destruct Hp as [rb rc pk sk s seedSE z P0 Hs Hse Hz Hrb Hpk Hsk Hd|rb rc ct ss pk PK mu P0 Hmu Hrb Hpk BPK Hct Hss Hd Hd2|ss ct sk CT SK P0 Hsk BSK Hal Hct BCT Hss]; subst P0; set (P := cP C) in *.
  - pose proof (KeyGen_parts P (cGen C) V s seedSE z (proj1 Hs)) as K. destruct (KeyGen P (cGen C) s seedSE z) as [PK SK]. destruct K as (L1 & _ & L2 & _). cbn [fst snd] in Eo. pose proof (zlen_nonneg PK) as Hn.
    destruct early as [|[b0 y0] [|? [|? ?]]]; try discriminate. cbn [app] in Eo. injection Eo as <- <- <- <-. unfold disjoint in Hd. unfold writes, early_len. fold P. cbn [place In].
    repeat split; intros; repeat match goal with H : _ \/ False |- _ => destruct H as [H|[]]; injection H as <- <- end.
    all: try (repeat match goal with |- context [(?x <=? ?y) && (?z <? ?w)] => destruct (Z.leb_spec x y), (Z.ltb_spec z w); cbn [andb]; cbv iota; try lia end).
    + exists sk, (skBytes P). split; [right; left; reflexivity|lia].
    + exists pk, (pkBytes P). split; [left; reflexivity|lia].
  - pose proof (Encaps_shape P (cGen C) V PK mu) as K. destruct (Encaps P (cGen C) PK mu) as [CT SS]. destruct K as (L1 & _ & L2 & _). cbn [fst snd] in Eo. pose proof (zlen_nonneg CT) as Hn.
    destruct early as [|[b0 y0] [|? [|? ?]]]; try discriminate. cbn [app] in Eo. injection Eo as <- <- <- <-. unfold disjoint in Hd2. unfold writes, early_len. fold P. cbn [place In].
    repeat split; intros; repeat match goal with H : _ \/ False |- _ => destruct H as [H|[]]; injection H as <- <- end.
    all: try (repeat match goal with |- context [(?x <=? ?y) && (?z <? ?w)] => destruct (Z.leb_spec x y), (Z.ltb_spec z w); cbn [andb]; cbv iota; try lia end).
    + exists ss, (pCB P). split; [right; left; reflexivity|lia].
    + exists ct, (ctBytes P). split; [left; reflexivity|lia].
  - assert (L1 : zlen (Decaps P (cGen C) SK CT) = pCB P).
    { unfold Decaps. destruct (Encrypt _ _ _ _ _ _) as [[? ?] ?]. apply (F_zlen_Hash P (cGen C) V); lia. }
    destruct early as [|? [|? ?]]; try discriminate. cbn [app] in Eo. injection Eo as <- <-. unfold writes, early_len. fold P. cbn [place In].
    repeat split; intros; try contradiction.
    all: try (repeat match goal with |- context [(?x <=? ?y) && (?z <? ?w)] => destruct (Z.leb_spec x y), (Z.ltb_spec z w); cbn [andb]; cbv iota; try lia end).
    exists ss, (pCB P). split; [left; reflexivity|lia].
Qed.

(** The memory m that an interruption of the call c leaves, started with mem: a byte of its last
    output (the secret key, or the shared secret) is what it was, or what the call puts there; if
    one of them has changed, the outputs before it (the public key, or the ciphertext) are complete;
    and a byte of those is what it was, or has the top bits of what the call puts there (all of them,
    some, or none) and zeros below. *)
Definition orderly (C : config) (mem m : list Z) (c : call) : Prop :=
  forall early a x, prescribed C mem c (early ++ [(a, x)]) ->
  (forall k, 0 <= k < zlen x -> znth m (a + k) = znth mem (a + k) \/ znth m (a + k) = znth x k) /\
  (forall k, 0 <= k < zlen x -> znth m (a + k) <> znth mem (a + k) -> forall b y, In (b, y) early -> holds m b (zlen y) y) /\
  forall b y k, In (b, y) early -> 0 <= k < zlen y ->
    znth m (b + k) = znth mem (b + k) \/ exists j, 0 <= j <= 8 /\ znth m (b + k) = znth y k / 2 ^ j * 2 ^ j.

Lemma holds_znth m a n x k : holds m a n x -> 0 <= k < zlen x -> zlen x = n -> znth m (a + k) = znth x k.
Proof. intros ((H1 & H2) & H3) Hk L. rewrite <- H3. rewrite znth_zslice by lia. reflexivity. Qed.
Lemma orderly_after C me mem g c n m m1 : valid (cP C) -> build_ok C -> m1 = snd (fst (after n (program C me c) mem g)) -> zlen m = zlen mem ->
  (forall a, within (writes C c) a -> znth m a = znth m1 a) -> orderly C mem m c.
Proof.
  intros V Hb -> L Ag early a x Hp. destruct (call_order C me mem c _ V Hb Hp g) as (O & mem' & g' & S & Ho).
  destruct (rising_after _ _ n _ _ _ _ O) as (r' & _ & H1 & H2 & _ & H3). rewrite S in H1, H3. cbn [fst snd] in H1, H3.
  destruct (out_ranks C mem c early a x V Hp) as (R0 & R1 & I1 & I2). set (rk := place 0 (writes C c)) in *. split; [|split].
  - intros k Hk. rewrite (Ag _ (I1 k Hk)). destruct (Z.ltb_spec (rk (a + k)) r') as [Hr|Hr].
    + right. rewrite (H1 _ Hr). apply (holds_znth _ _ (zlen x)); [apply Ho, in_or_app; right; left; reflexivity|exact Hk|reflexivity].
    + left. apply H2; [apply (R0 k Hk)|exact Hr].
  - intros k Hk Hne b y Hin. rewrite (Ag _ (I1 k Hk)) in Hne. destruct (Z.ltb_spec (rk (a + k)) r') as [Hr|Hr]; [|rewrite H2 in Hne by (try exact Hr; apply (R0 k Hk)); congruence].
    assert (Hy : holds mem' b (zlen y) y) by (apply Ho, in_or_app; left; exact Hin). assert (Lm : zlen mem' = zlen mem).
    { clear - S. assert (K : forall (p : prog Z) mem g, zlen (snd (fst (solo p mem g))) = zlen mem).
      { induction p as [z|e|o k IH|o v k IH|k IH|v k IH]; intros mem0 g0; cbn [solo]; try reflexivity; auto; destruct (in_mem mem0 o); auto. rewrite IH, zlen_zset. reflexivity. }
      specialize (K (program C me c) mem g). rewrite S in K. exact K. }
    destruct Hy as ((Y1 & Y2) & Y3). split; [split; lia|]. rewrite <- Y3 at 2. pose proof (zlen_nonneg y). apply list_ext; [rewrite !zlen_zslice; lia|]. rewrite zlen_zslice by lia. intros j Hj.
    rewrite !znth_zslice by lia. destruct (R1 k b y j Hk Hin Hj) as (Hj0 & Hj1). rewrite (Ag _ (I2 b y j Hin Hj)), (H1 (b + j)) by lia. reflexivity.
  - intros b y k Hin Hk. rewrite (Ag _ (I2 b y k Hin Hk)). destruct (H3 (b + k)) as [E|T]; [left; exact E|right].
    rewrite (holds_znth mem' b (zlen y) y k) in T; [exact T| |exact Hk|reflexivity]. apply Ho, in_or_app. left. exact Hin.
Qed.

(** What is prescribed depends only on the inputs. *)
Lemma again C mem m c outs : zlen m = zlen mem -> (forall a, within (inputs C c) a -> znth m a = znth mem a) -> prescribed C mem c outs -> prescribed C m c outs.
Proof.
  intros L Fr Hp. assert (In' : forall o n x, In (o, n) (inputs C c) -> holds mem o n x -> holds m o n x).
  { intros o n x Hin ((H1 & H2) & H3). split; [split; lia|]. rewrite <- H3. destruct (Z.ltb_spec n 0) as [Hn|Hn].
    - unfold zslice. replace (Z.to_nat n) with 0%nat by lia. reflexivity.
    - apply list_ext; [rewrite !zlen_zslice; lia|]. rewrite zlen_zslice by lia. intros k Hk. rewrite !znth_zslice by lia. apply Fr. exists o, n. split; [exact Hin|lia]. }
  assert (Rg : forall o n, region mem o n -> region m o n) by (unfold region; intros; lia).
  destruct Hp as [rb rc pk sk s seedSE z P0 Hs Hse Hz Hrb Hpk Hsk Hd|rb rc ct ss pk PK mu P0 Hmu Hrb Hpk BPK Hct Hss Hd Hd2|ss ct sk CT SK P0 Hsk BSK Hal Hct BCT Hss]; subst P0.
  - eapply pres_keypair; eauto.
  - eapply pres_enc; eauto. apply In'; [left; reflexivity|exact Hpk].
  - eapply pres_dec; eauto; apply In'; cbn; auto.
Qed.
Lemma place_out l : forall base a, ~ within l a -> place base l a = -1.
Proof.
  induction l as [|[o n] l IH]; intros base a H; cbn [place]; [reflexivity|].
  destruct (Z.leb_spec o a), (Z.ltb_spec a (o + n)); cbn [andb]; try (apply IH; intros (o' & n' & I1 & I2); apply H; exists o', n'; split; [right; exact I1|exact I2]).
  exfalso. apply H. exists o, n. split; [left; reflexivity|lia].
Qed.
(** The run of one thread alone: the machine of Conc.v and [after]; its end. *)
Lemma exec_alone n : forall (p : prog Z) mem g, let w := exec (repeat 0%nat n) (mkw mem g [p]) in
  w_mem w = snd (fst (after n p mem g)) /\ zlen (w_mem w) = zlen mem /\ w_thr w = [fst (fst (after n p mem g))].
Proof.
  induction n as [|n IH]; intros p mem g; [repeat split|]. cbn [repeat exec fold_left after]. unfold turn. cbn [w_thr nth_error w_mem w_g].
  destruct (step p mem g) as [[p' m'] g'] eqn:E. cbn [set_thr]. destruct (IH p' m' g') as (H1 & H2 & H3). split; [exact H1|]. split; [|exact H3]. etransitivity; [exact H2|].
  destruct p as [x|e|o k|o v k|k|v k]; cbn [step] in E; try (destruct (in_mem mem o)); injection E as <- <- <-; try reflexivity. apply zlen_zset.
Qed.
Lemma after_end {A} (p : prog A) : forall mem g n a t m' g', solo p mem g = (Ok a t, m', g') -> (actions p mem g <= n)%nat -> after n p mem g = (Ret a, m', g').
Proof.
  assert (K : forall n (a : A) mem g, after n (Ret a) mem g = (Ret a, mem, g)) by (induction n; intros; cbn; auto).
  induction p as [x|e|o k IH|o v k IH|k IH|v k IH]; intros mem g n a t m' g' S Hn; cbn [solo actions] in *.
  - injection S as <- _ <- <-. apply K.
  - discriminate.
  - destruct n as [|n]; [lia|]. cbn [after step]. destruct (in_mem mem o); [|discriminate]. eapply IH; [exact S|lia].
  - destruct n as [|n]; [lia|]. cbn [after step]. destruct (in_mem mem o); [|discriminate]. eapply IH; [exact S|lia].
  - destruct n as [|n]; [lia|]. cbn [after step]. eapply IH; [exact S|lia].
  - destruct n as [|n]; [lia|]. cbn [after step]. eapply IH; [exact S|lia].
Qed.

(** ** One call, in any build, stopped after any number n of its actions
    (N is the number of its actions: from there on it has returned, with its outputs in place.) *)
Theorem C53_alone : forall C me mem g c outs, valid (cP C) -> build_ok C -> prescribed C mem c outs -> exists N : nat, forall n,
  let w := exec (repeat 0%nat n) (mkw mem g [program C me c]) in
  zlen (w_mem w) = zlen mem /\
  (forall a, ~ within (writes C c) a -> znth (w_mem w) a = znth mem a) /\
  orderly C mem (w_mem w) c /\
  ((N <= n)%nat -> w_thr w = [Ret 0] /\ forall a x, In (a, x) outs -> holds (w_mem w) a (zlen x) x).
Proof.
  intros C me mem g c outs V Hb Hp. exists (actions (program C me c) mem g). intros n w.
  destruct (exec_alone n (program C me c) mem g) as (E1 & E2 & E3). fold w in E1, E2, E3. destruct (call_order C me mem c outs V Hb Hp g) as (O & mem' & g' & S & Ho).
  split; [exact E2|]. split; [|split].
  - intros a Ha. rewrite E1. destruct (rising_after _ _ n _ _ _ _ O) as (r' & _ & _ & _ & H1 & _). pose proof (place_out (writes C c) 0 a Ha) as Er. apply H1. lia.
  - eapply (orderly_after C me mem g c n); [exact V|exact Hb|exact E1|exact E2|reflexivity].
  - intros Hn. unfold ret in S. pose proof (after_end _ _ _ n _ _ _ _ S Hn) as Ea. rewrite Ea in E1, E3. cbn [fst snd] in E1, E3. rewrite E1, E3. split; [reflexivity|exact Ho].
Qed.
Print Assumptions C53_alone.

(** ** Calls of several threads at once, stopped after any schedule *)
Theorem C53_threads : forall C mem g cs, valid (cP C) -> build_ok C -> reentrant C ->
  (forall i me c, nth_error cs i = Some (me, c) -> exists outs, prescribed C mem c outs) -> apart C (map snd cs) ->
  forall sched, let m := w_mem (exec sched (mkw mem g (map (fun mc => program C (fst mc) (snd mc)) cs))) in
  zlen m = zlen mem /\
  (forall a, (forall i me c, nth_error cs i = Some (me, c) -> ~ within (writes C c) a) -> znth m a = znth mem a) /\
  forall i me c, nth_error cs i = Some (me, c) -> orderly C mem m c.
Proof.
  intros C mem g cs V Hb Hre HP HA sched m. destruct (C33_threads C mem g cs V Hb Hre HP HA) as (turns & H33). destruct (H33 sched) as (L & Fr & _). fold m in L, Fr.
  split; [exact L|]. split; [exact Fr|]. intros i me c Hi. set (Ps := map (fun mc => program C (fst mc) (snd mc)) cs).
  set (W := fun i a => exists me c, nth_error cs i = Some (me, c) /\ within (writes C c) a).
  set (R := fun i a => exists me c, nth_error cs i = Some (me, c) /\ within (writes C c ++ inputs C c) a).
  assert (HO : forall i p, nth_error Ps i = Some p -> obeys (R i) (W i) p mem).
  { intros k p E. unfold Ps in E. rewrite nth_error_map in E. destruct (nth_error cs k) as [[me' c']|] eqn:Ec; [|discriminate]. injection E as <-.
    destruct (HP k me' c' Ec) as (outs & Hp). destruct (call_alone C me' mem c' outs V Hb Hre Hp) as (O & _).
    eapply obeys_mono; [| |exact O]; intros a Ha; exists me', c'; auto. }
  assert (HD : forall i k a, i <> k -> W i a -> R k a -> False).
  { intros j k a Hn (m1 & x & Ex & (o & n & I1 & H1)) (m2 & y & Ey & (o' & n' & I2 & H2)).
    assert (D : disjoint o n o' n').
    { apply (HA j k x y Hn); [rewrite nth_error_map, Ex; reflexivity|rewrite nth_error_map, Ey; reflexivity|exact I1|exact I2]. }
    unfold disjoint in D. lia. }
  destruct (trail_exec Z Ps R W mem g HO HD sched) as (_ & _ & Th). fold m in Th.
  destruct (Th i (program C me c)) as (n & p' & m1 & _ & Ea & _ & _ & Ag); [unfold Ps; rewrite nth_error_map, Hi; reflexivity|].
  apply (orderly_after C me mem g c n m m1 V Hb); [rewrite Ea; reflexivity|exact L|].
  intros a (o & n' & I1 & H1). apply Ag. exists me, c. split; [exact Hi|]. exists o, n'. split; [apply in_or_app; left; exact I1|exact H1].
Qed.
Print Assumptions C53_threads.

(** ** Starting again
    If the outputs of the calls are apart from their own inputs too, then the memory that is left
    behind, whatever was done, prescribes for each call what the memory at the start did: calling
    again with the same arguments (and the same random bytes) gives the same outputs. *)
Theorem C53_again : forall C mem g cs, valid (cP C) -> build_ok C -> reentrant C ->
  (forall i me c, nth_error cs i = Some (me, c) -> exists outs, prescribed C mem c outs) -> apart C (map snd cs) ->
  (forall i me c o n o' n', nth_error cs i = Some (me, c) -> In (o, n) (writes C c) -> In (o', n') (inputs C c) -> disjoint o n o' n') ->
  forall sched i me c outs, nth_error cs i = Some (me, c) -> prescribed C mem c outs ->
  prescribed C (w_mem (exec sched (mkw mem g (map (fun mc => program C (fst mc) (snd mc)) cs)))) c outs.
Proof.
  intros C mem g cs V Hb Hre HP HA HI sched i me c outs Hi Hp.
  destruct (C53_threads C mem g cs V Hb Hre HP HA sched) as (L & Fr & _). cbv zeta in L, Fr. apply (again C mem); [exact L| |exact Hp].
  intros a (o & n & Hin & Ha). apply Fr. intros j me' c' Hj (o' & n' & I1 & H4).
  assert (D : disjoint o' n' o n).
  { destruct (Nat.eq_dec j i) as [->|Hji].
    - rewrite Hi in Hj. injection Hj as <- <-. exact (HI i me c o' n' o n Hi I1 Hin).
    - apply (HA j i c' c Hji); [rewrite nth_error_map, Hj; reflexivity|rewrite nth_error_map, Hi; reflexivity|exact I1|apply in_or_app; right; exact Hin]. }
  unfold disjoint in D. lia.
Qed.
Print Assumptions C53_again.

Theorem C53_again_alone : forall C me mem g c outs n, valid (cP C) -> build_ok C -> prescribed C mem c outs ->
  (forall o k o' k', In (o, k) (writes C c) -> In (o', k') (inputs C c) -> disjoint o k o' k') ->
  prescribed C (w_mem (exec (repeat 0%nat n) (mkw mem g [program C me c]))) c outs.
Proof.
  intros C me mem g c outs n V Hb Hp HI. destruct (C53_alone C me mem g c outs V Hb Hp) as (N & H). destruct (H n) as (L & Fr & _). apply (again C mem); [exact L| |exact Hp].
  intros a (o & k & Hin & Ha). apply Fr. intros (o' & k' & I1 & H1). specialize (HI o' k' o k I1 Hin). unfold disjoint in HI. lia.
Qed.
Print Assumptions C53_again_alone.

(** The hypotheses: the three threads of C33, FrodoKEM-976 with SHAKE, with outputs apart from
    inputs.  For a build with the portable AES, see C42_hyps. *)
Example C53_hyps :
  (exists a1 x1 a2 x2, prescribed C976 mem3 (KeyPair rand976 110000 130000) ([(a1, x1)] ++ [(a2, x2)])) /\
  (forall i me c o n o' n', nth_error cs3 i = Some (me, c) -> In (o, n) (writes C976 c) -> In (o', n') (inputs C976 c) -> disjoint o n o' n').
Proof.
  split.
  - destruct C33_hyps as (H & _). destruct (H 2%nat 3 _ eq_refl) as (outs & Hp). inversion Hp; subst. eexists. eexists. eexists. eexists. exact Hp.
  - intros i me c o n o' n' E I1 I2. destruct i as [|[|[|i]]]; cbn in E; try (destruct i; discriminate); injection E as <- <-;
    assert (Epk : pkBytes (cP C976) = 15632) by reflexivity; assert (Esk : skBytes (cP C976) = 31296) by reflexivity;
    assert (Ect : ctBytes (cP C976) = 15744) by reflexivity; assert (ECB : pCB (cP C976) = 24) by reflexivity;
    cbn [writes inputs In] in I1, I2; rewrite ?Epk, ?Esk, ?Ect, ?ECB in I1, I2;
    repeat destruct I1 as [I1|I1]; try contradiction; injection I1 as <- <-;
    repeat destruct I2 as [I2|I2]; try contradiction; injection I2 as <- <-; unfold disjoint; change (cP C976) with frodo976 in *; rewrite ?Epk, ?Esk, ?Ect, ?ECB; lia.
Qed.
