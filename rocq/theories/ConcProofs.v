(** Threads with separate footprints do not disturb each other, whatever the schedule. *)
From Verif Require Import CSem Conc.

Lemma in_mem_len mem mem' a : zlen mem = zlen mem' -> in_mem mem a = in_mem mem' a.
Proof. intros E; unfold in_mem; now rewrite E. Qed.
Lemma in_mem_true mem a : in_mem mem a = true <-> 0 <= a < zlen mem.
Proof. unfold in_mem. rewrite andb_true_iff, Z.leb_le, Z.ltb_lt. reflexivity. Qed.

Lemma nth_set_eq {A} (l : list (prog A)) i p q : nth_error l i = Some q -> nth_error (set_thr l i p) i = Some p.
Proof. revert i; induction l; intros [|i] H; cbn in *; try discriminate; auto. Qed.
Lemma nth_set_ne {A} (l : list (prog A)) i j p : i <> j -> nth_error (set_thr l i p) j = nth_error l j.
Proof. revert i j; induction l; intros [|i] [|j] H; cbn; auto; try congruence. Qed.

Section Inter.
Variables (A : Type) (P : list (prog A)) (R W : nat -> Z -> Prop) (mem0 : list Z) (g0 : Z).
Hypothesis HO : forall i p, nth_error P i = Some p -> obeys (R i) (W i) p mem0.
Hypothesis HD : forall i j a, i <> j -> W i a -> R j a -> False.

Definition inv (w : world A) (done : list nat) : Prop :=
  zlen (w_mem w) = zlen mem0 /\ w_g w = g0 /\
  (forall a, (forall i p, nth_error P i = Some p -> ~ W i a) -> znth (w_mem w) a = znth mem0 a) /\
  (forall i, nth_error (w_thr w) i = None <-> nth_error P i = None) /\
  forall i p p', nth_error P i = Some p -> nth_error (w_thr w) i = Some p' -> exists m,
    zlen m = zlen mem0 /\ obeys (R i) (W i) p' m /\ (forall a, R i a -> znth (w_mem w) a = znth m a) /\
    solo p' m g0 = solo p mem0 g0 /\ (actions p' m g0 = actions p mem0 g0 - count_occ Nat.eq_dec done i)%nat.

Lemma inv_init : inv (mkw mem0 g0 P) [].
Proof.
  split; [reflexivity|]. split; [reflexivity|]. split; [reflexivity|]. split; [reflexivity|].
  cbn. intros i p p' E E'. rewrite E in E'. injection E' as <-. exists mem0.
  split; [reflexivity|]. split; [now apply HO|]. split; [reflexivity|]. split; [reflexivity|]. lia.
Qed.
Lemma inv_turn w done k : inv w done -> inv (turn k w) (done ++ [k]).
Proof.
  intros (L & G & Out & Dom & Th). unfold turn. destruct (nth_error (w_thr w) k) as [pk|] eqn:Ek.
  2:{ split; [exact L|]. split; [exact G|]. split; [exact Out|]. split; [exact Dom|]. intros i p p' E E'.
      destruct (Th i p p' E E') as (m & H1 & H2 & H3 & H4 & H5). exists m. split; [exact H1|]. split; [exact H2|]. split; [exact H3|]. split; [exact H4|].
      rewrite count_occ_app. cbn. destruct (Nat.eq_dec k i); [subst; congruence|lia]. }
  destruct (nth_error P k) as [p0|] eqn:E0; [|apply Dom in E0; congruence].
  destruct (Th k p0 pk E0 Ek) as (mk & Lk & Ok & Ak & Sk & Ck).
  (* what the step does, seen by thread k alone *)
  assert (S : exists mk' memv, step pk (w_mem w) (w_g w) = (fst (fst (step pk mk g0)), memv, g0) /\ step pk mk g0 = (fst (fst (step pk mk g0)), mk', g0) /\
     zlen memv = zlen mem0 /\ zlen mk' = zlen mem0 /\ obeys (R k) (W k) (fst (fst (step pk mk g0))) mk' /\
     solo (fst (fst (step pk mk g0))) mk' g0 = solo pk mk g0 /\ (actions (fst (fst (step pk mk g0))) mk' g0 = actions pk mk g0 - 1)%nat /\
     (forall a, R k a -> znth memv a = znth mk' a) /\ (forall a, ~ W k a -> znth memv a = znth (w_mem w) a)).
  { rewrite G. destruct pk as [a|e|a kk|a v kk|kk|v kk]; cbn [step fst solo actions obeys] in *.
    - exists mk, (w_mem w). repeat (split; [auto|]). auto.
    - exists mk, (w_mem w). repeat (split; [auto|]). auto.
    - destruct Ok as (Hin & HR & Ok). rewrite (in_mem_len (w_mem w) mk) by lia. rewrite Hin. cbn [fst].
      exists mk, (w_mem w). rewrite (Ak a HR). repeat (split; [auto; try lia|]). auto.
    - destruct Ok as (Hin & HW & Ok). rewrite (in_mem_len (w_mem w) mk) by lia. rewrite Hin. cbn [fst]. apply in_mem_true in Hin.
      exists (zset mk a v), (zset (w_mem w) a v). split; [reflexivity|]. split; [reflexivity|]. split; [now rewrite zlen_zset|]. split; [now rewrite zlen_zset|].
      split; [exact Ok|]. split; [reflexivity|]. split; [lia|]. split.
      + intros b Hb. destruct (Z.eq_dec a b) as [<-|Hn]; [rewrite !znth_zset_eq by lia; reflexivity|rewrite !znth_zset_ne by lia; auto].
      + intros b Hb. apply znth_zset_ne; [lia|]. intros ->. contradiction.
    - contradiction.
    - contradiction. }
  destruct S as (mk' & memv & E1 & E2 & L1 & L2 & Ok' & Sk' & Ck' & Ag & Fr). rewrite E1. set (p1 := fst (fst (step pk mk g0))) in *.
  split; [exact L1|]. split; [reflexivity|]. cbn [w_mem w_g w_thr].
  split.
  { intros a Ha. rewrite Fr by (apply (Ha k p0 E0)). apply Out. exact Ha. }
  split.
  { intros i. destruct (Nat.eq_dec k i) as [<-|Hn]; [rewrite (nth_set_eq _ _ _ pk Ek); split; intros; congruence|rewrite nth_set_ne by exact Hn; apply Dom]. }
  intros i p p' E E'. destruct (Nat.eq_dec k i) as [<-|Hn].
  - rewrite (nth_set_eq _ _ _ pk Ek) in E'. injection E' as <-. rewrite E0 in E. injection E as <-.
    exists mk'. split; [exact L2|]. split; [exact Ok'|]. split; [exact Ag|]. split; [now rewrite Sk'|].
    rewrite Ck', Ck, count_occ_app. cbn. destruct (Nat.eq_dec k k); [lia|congruence].
  - rewrite nth_set_ne in E' by exact Hn. destruct (Th i p p' E E') as (m & H1 & H2 & H3 & H4 & H5).
    exists m. split; [exact H1|]. split; [exact H2|]. split.
    { intros a Ha. rewrite Fr; [auto|]. intros HW. exact (HD k i a Hn HW Ha). }
    split; [exact H4|]. rewrite H5, count_occ_app. cbn. destruct (Nat.eq_dec k i); [congruence|lia].
Qed.
Lemma inv_exec sched w done : inv w done -> inv (exec sched w) (done ++ sched).
Proof.
  revert w done; induction sched as [|k s IH]; intros w done H; cbn; [now rewrite app_nil_r|].
  replace (done ++ k :: s) with ((done ++ [k]) ++ s) by (now rewrite <- app_assoc). apply IH, inv_turn, H.
Qed.

Lemma ended_iff (p : prog A) mem g : (exists r, ended p = Some r) <-> actions p mem g = O.
Proof. destruct p; cbn; split; intros; try (eexists; reflexivity); try reflexivity; try discriminate; destruct H; discriminate. Qed.
Lemma ended_solo (p : prog A) r mem g : ended p = Some r -> solo p mem g = (r, mem, g).
Proof. destruct p; cbn; intros H; try discriminate; injection H as <-; reflexivity. Qed.

(** The memory and the thread i after any schedule. *)
Theorem interleave sched : let w := exec sched (mkw mem0 g0 P) in
  zlen (w_mem w) = zlen mem0 /\
  (forall a, (forall i p, nth_error P i = Some p -> ~ W i a) -> znth (w_mem w) a = znth mem0 a) /\
  forall i p, nth_error P i = Some p -> exists p', nth_error (w_thr w) i = Some p' /\
    ((actions p mem0 g0 <= count_occ Nat.eq_dec sched i)%nat -> exists r, ended p' = Some r) /\
    (forall r, ended p' = Some r -> exists m', solo p mem0 g0 = (r, m', g0) /\ zlen m' = zlen mem0 /\ forall a, R i a -> znth (w_mem w) a = znth m' a).
Proof.
  pose proof (inv_exec sched _ [] inv_init) as (L & G & Out & Dom & Th). cbv zeta. split; [exact L|]. split; [exact Out|].
  intros i p E. destruct (nth_error (w_thr (exec sched (mkw mem0 g0 P))) i) as [p'|] eqn:E'; [|apply Dom in E'; congruence].
  exists p'. split; [reflexivity|]. destruct (Th i p p' E E') as (m & H1 & H2 & H3 & H4 & H5). split.
  - intros H. apply (ended_iff p' m g0). cbn in H5. lia.
  - intros r Hr. exists m. rewrite <- H4, (ended_solo p' r m g0 Hr). split; [reflexivity|]. split; [exact H1|exact H3].
Qed.
End Inter.

(** ** Rules for [solo] and [obeys] of composite programs *)
Lemma solo_bind {A B} (p : prog A) (f : A -> prog B) mem g :
  solo (pbind p f) mem g =
  match solo p mem g with (Ok a _, mem', g') => solo (f a) mem' g' | (Err e, mem', g') => (Err e, mem', g') end.
Proof.
  revert mem g. induction p as [a|e|a k IH|a v k IH|k IH|v k IH]; intros mem g; cbn; try reflexivity.
  - destruct (in_mem mem a); [apply IH|reflexivity].
  - destruct (in_mem mem a); [apply IH|reflexivity].
  - apply IH.
  - apply IH.
Qed.
Lemma solo_loc {A} (m : res A) mem g : solo (loc m) mem g = match m with Ok a _ => (ret a, mem, g) | Err e => (Err e, mem, g) end.
Proof. destruct m; reflexivity. Qed.
Lemma obeys_bind {A B} R W (p : prog A) (f : A -> prog B) mem :
  obeys R W p mem ->
  (forall a mem' g, solo p mem g = (ret a, mem', g) -> obeys R W (f a) mem') ->
  obeys R W (pbind p f) mem.
Proof.
  revert mem. induction p as [a|e|a k IH|a v k IH|k IH|v k IH]; intros mem HO HF; cbn in *; auto.
  - apply (HF a mem 0). reflexivity.
  - destruct HO as (Hi & HR & HO). split; [exact Hi|]. split; [exact HR|]. apply IH; [exact HO|]. intros b m' g E. apply (HF b m' g). now rewrite Hi.
  - destruct HO as (Hi & HW & HO). split; [exact Hi|]. split; [exact HW|]. apply IH; [exact HO|]. intros b m' g E. apply (HF b m' g). now rewrite Hi.
Qed.
Lemma obeys_loc {A} R W (m : res A) mem : obeys R W (loc m) mem.
Proof. destruct m; exact I. Qed.
Lemma obeys_mono {A} (R W R' W' : Z -> Prop) (p : prog A) mem : (forall a, R a -> R' a) -> (forall a, W a -> W' a) ->
  obeys R W p mem -> obeys R' W' p mem.
Proof. intros HR HW. revert mem. induction p; intros mem; cbn; auto; intros (H1 & H2 & H3); auto. Qed.

Lemma solo_ldn n : forall a mem g, 0 <= a -> a + Z.of_nat n <= zlen mem -> solo (ldn a n) mem g = (ret (zslice mem a (Z.of_nat n)), mem, g).
Proof.
  induction n as [|n IH]; intros a mem g Ha Hn.
  - cbn. unfold zslice. cbn. reflexivity.
  - rewrite Nat2Z.inj_succ in *. cbn [ldn solo]. assert (Hi : in_mem mem a = true) by (apply in_mem_true; lia). rewrite Hi, solo_bind, IH by lia. unfold ret at 1. cbn [solo].
    apply f_equal2; [|reflexivity]. apply f_equal2; [|reflexivity]. unfold ret. apply f_equal2; [|reflexivity].
    apply list_ext; [rewrite zlen_cons, !zlen_zslice by lia; lia|]. rewrite zlen_cons, zlen_zslice by lia. intros i Hi'.
    rewrite (znth_zslice mem a) by lia. destruct (Z.eq_dec i 0) as [-> |]; [rewrite Z.add_0_r; reflexivity|].
    rewrite znth_consS by lia. rewrite znth_zslice by lia. f_equal. lia.
Qed.
Lemma solo_load a n mem g : 0 <= a -> 0 <= n -> a + n <= zlen mem -> solo (load a n) mem g = (ret (zslice mem a n), mem, g).
Proof.
  intros Ha Hn Hl. unfold load. destruct (Z.leb_spec 0 n); [|lia]. rewrite solo_ldn by lia. now rewrite Z2Nat.id by lia.
Qed.
Lemma zsplice_nil (l : list Z) a : 0 <= a <= zlen l -> zsplice l a [] = l.
Proof.
  intros H. apply list_ext; [apply zlen_zsplice; cbn; lia|]. intros i Hi. rewrite zlen_zsplice in Hi by (cbn; lia).
  rewrite znth_zsplice by (cbn; lia). change (zlen (@nil Z)) with 0. destruct (Z.leb_spec a i), (Z.ltb_spec i (a + 0)); cbn; try reflexivity; lia.
Qed.
Lemma solo_stn l : forall a mem g, 0 <= a -> a + zlen l <= zlen mem -> solo (stn a l) mem g = (ret tt, zsplice mem a l, g).
Proof.
  induction l as [|v l IH]; intros a mem g Ha Hl.
  - cbn in *. rewrite zsplice_nil; [reflexivity|]. change (zlen (@nil Z)) with 0 in Hl. lia.
  - rewrite zlen_cons in Hl. pose proof (zlen_nonneg l). cbn [stn solo]. assert (Hi : in_mem mem a = true) by (apply in_mem_true; lia).
    rewrite Hi, IH by (rewrite ?zlen_zset; lia). apply f_equal2; [|reflexivity]. apply f_equal2; [reflexivity|].
    assert (L1 : zlen (zsplice (zset mem a v) (a + 1) l) = zlen mem) by (rewrite zlen_zsplice; rewrite ?zlen_zset; lia).
    assert (L2 : zlen (zsplice mem a (v :: l)) = zlen mem) by (rewrite zlen_zsplice; rewrite ?zlen_cons; lia).
    apply list_ext; [lia|]. rewrite L1. intros i Hi'.
    rewrite znth_zsplice by (rewrite ?zlen_zset; lia). rewrite znth_zsplice by (rewrite ?zlen_cons; lia).
    rewrite zlen_cons, znth_zset by lia.
    destruct (Z.eq_dec a i) as [<-|Hn].
    + rewrite Z.eqb_refl, Z.sub_diag, znth_cons0, Z.leb_refl. destruct (Z.leb_spec (a + 1) a); [lia|]. destruct (Z.ltb_spec a (a + (1 + zlen l))); [reflexivity|lia].
    + destruct (Z.eqb_spec a i); [lia|]. destruct (Z.leb_spec a i), (Z.leb_spec (a + 1) i), (Z.ltb_spec i (a + 1 + zlen l)), (Z.ltb_spec i (a + (1 + zlen l))); cbn [andb]; try lia; try reflexivity.
      rewrite znth_consS by lia. f_equal; lia.
Qed.
Lemma solo_store a l mem g : 0 <= a -> a + zlen l <= zlen mem -> solo (store a l) mem g = (ret tt, zsplice mem a l, g).
Proof. apply solo_stn. Qed.

Lemma obeys_ldn (R W : Z -> Prop) n : forall a mem, 0 <= a -> a + Z.of_nat n <= zlen mem -> (forall i, a <= i < a + Z.of_nat n -> R i) -> obeys R W (ldn a n) mem.
Proof.
  induction n as [|n IH]; intros a mem Ha Hn HR; [exact I|]. rewrite Nat2Z.inj_succ in *. cbn [ldn obeys].
  split; [apply in_mem_true; lia|]. split; [apply HR; lia|]. apply obeys_bind; [apply IH; [lia|lia|intros; apply HR; lia]|]. intros; exact I.
Qed.
Lemma obeys_load (R W : Z -> Prop) a n mem : 0 <= a -> a + n <= zlen mem -> (forall i, a <= i < a + n -> R i) -> obeys R W (load a n) mem.
Proof.
  intros Ha Hn HR. unfold load. destruct (Z.leb_spec 0 n); [|exact I]. apply obeys_ldn; [lia|lia|]. intros i Hi; apply HR; lia.
Qed.
Lemma obeys_store (R W : Z -> Prop) l : forall a mem, 0 <= a -> a + zlen l <= zlen mem -> (forall i, a <= i < a + zlen l -> W i) -> obeys R W (store a l) mem.
Proof.
  unfold store. induction l as [|v l IH]; intros a mem Ha Hl HW; [exact I|]. rewrite zlen_cons in *. pose proof (zlen_nonneg l). cbn [stn obeys].
  split; [apply in_mem_true; lia|]. split; [apply HW; lia|]. apply IH; [lia|rewrite zlen_zset; lia|intros; apply HW; lia].
Qed.
