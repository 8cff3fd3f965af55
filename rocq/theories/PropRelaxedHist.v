(** Property C54 for threads that use the library again and again on a machine with relaxed memory
    (RelaxedHist.v).  What FrodoKEM prescribes for a list of actions: PropConcHist.after_all. *)
From Verif Require RelaxedProofs.
From Verif Require Import CSem Params FrodoSpec Macrify Kem KemWp PropKem Conc ConcProofs ConcKem Random ConcRandom ConcRandomProofs PropConcRandom ConcLib ConcLibProofs Process PropProcess
  PropConcKem ConcHist ConcHistProofs PropConcHist Relaxed RelaxedRandom PropRelaxedRandom RelaxedLib RelaxedLibProofs RelaxedHist RelaxedHistProofs.

(** The threads start: they know V of the memory and T of [lock]. *)
Definition hbegin (mem : list Z) (ms : list message) (V : view) (ls : list (Z * list (nat * action)))
    (stk : list Z) (rqs : list (Z * Z)) (lms : list message) (T : Z) (fds : list Z) (pos : Z) : yhworld :=
  yh_start (zlen mem) ms V T ls (lk_start stk lms T fds pos rqs).
(** Thread i has done the first n of its actions, is between two of them, and knows v. *)
Definition ybetween (w : yhworld) (i n : nat) (v : view) : Prop :=
  exists h U, nth_error (yh_thr w) i = Some (h, v, U) /\ t_now h = None /\ length (t_codes h) = n.
(** Thread i has done its n-th action, which has the buffer s for its random bytes. *)
Definition ydid (w : yhworld) (ls : list (Z * list (nat * action))) (i n s : nat) (a : action) : Prop :=
  exists me l h V U, nth_error ls i = Some (me, l) /\ nth_error (yh_thr w) i = Some (h, V, U) /\ nth_error l n = Some (s, a) /\ (n < length (t_codes h))%nat.
Definition yfaulted (w : yhworld) (i : nat) : Prop :=
  exists h V U s e, nth_error (yh_thr w) i = Some (h, V, U) /\ (t_now h = Some (s, After (Fault e)) \/ exists k, t_now h = Some (s, Before (Fault e) k)).
(** What one who knew V knows after waiting for all threads. *)
Definition hjoined (V : view) (w : yhworld) : view := fun a => fold_right Z.max (V a) (map (fun x => snd (fst x) a) (yh_thr w)).

Lemma joined_hsame C (ls : list (Z * list (nat * action))) V R w thr : length (yh_thr w) = length ls -> hsame C ls R (yh_thr w) thr -> forall a, joined V thr a = hjoined V w a.
Proof.
  intros L (L' & H) a. unfold joined, hjoined. rewrite <- L in L'. f_equal. f_equal. revert L' H. clear. generalize (yh_thr w). intros l. revert thr.
  induction l as [|[[h U] T] l IH]; intros [|x thr] L' H; cbn in L'; try discriminate; [reflexivity|].
  cbn [map]. f_equal; [destruct (H 0%nat h U T x eq_refl eq_refl) as (X & _); cbv beta; cbn [fst snd]; rewrite <- X; reflexivity|]. apply IH; [lia|]. intros i. exact (H (Datatypes.S i)).
Qed.

(** ** The run seen from the memory and from random.c *)
Section Run.
Variables (C : config) (mem : list Z) (ms : list message) (V : view) (LS : list (Z * list (nat * action))) (stk : list Z) (rqs : list (Z * Z))
  (lms : list message) (T lock : Z) (fds : list Z) (pos : Z) (st : Z -> Z).
Hypothesis HS : setting C mem LS stk rqs lock fds st.
Hypothesis HV : shows ms V mem.
Hypothesis HN : newest_is lms T lock.
(** Threads that do only the first of their actions. *)
Variable ls : list (Z * list (nat * action)).
Hypothesis Hpre : forall i me l, nth_error ls i = Some (me, l) -> exists rest, nth_error LS i = Some (me, l ++ rest).
Notation P := (cP C).
Notation hsim := (hsim C st (zlen mem) ms V ls stk pos rqs T).
Notation w0 := (hbegin mem ms V ls stk rqs lms T fds pos).
Let HRq := set_req C mem LS stk rqs lock fds st HS.
Let HDs := set_dis C mem LS stk rqs lock fds st HS.

Lemma hsim_run sched : exists s1, hsim s1 (yh_exec C st rqs sched w0).
Proof.
  pose proof HS as (_ & _ & _ & _ & _ & _ & _ & Hq & Hd & _).
  refine (hsim_exec C st (zlen mem) ms V ls stk pos rqs T HRq HDs (set_slot' C mem LS stk rqs lock fds st HS ls Hpre) sched [] _ _).
  apply hsim_start; [reflexivity|]. exists lock. apply lk_start_inv; assumption.
Qed.
Lemma agrees_proj nv r R : agrees rqs (proj r nv) R -> hagrees rqs r R.
Proof. intros H s Hs. apply (H s). apply (lk_returned_iff r nv), Hs. Qed.
Lemma ysrc s1 w : hsim s1 w -> exists nv, rinv st stk pos rqs (proj (yh_rng w) nv) /\ exists src, sources rqs st pos (proj (yh_rng w) nv) src.
Proof.
  intros ((T1 & nv & (_ & _ & Q & _) & _) & _). exists nv. split; [exact Q|].
  destruct (inv_facts st stk pos rqs _ Q) as (_ & _ & (src & S1 & S2 & S3) & _). exists src. split; [exact S1|split; [exact S2|exact S3]].
Qed.

(** The bytes delivered, and zeros, for the actions. *)
Lemma picked s1 w nv src : hsim s1 w -> rinv st stk pos rqs (proj (yh_rng w) nv) -> sources rqs st pos (proj (yh_rng w) nv) src ->
  hagrees rqs (yh_rng w) (chosen rqs (proj (yh_rng w) nv)) /\
  (forall i me l, nth_error LS i = Some (me, l) -> sized P (chosen rqs (proj (yh_rng w) nv)) l) /\
  (forall i me l h U W s a, nth_error ls i = Some (me, l) -> nth_error (yh_thr w) i = Some (h, U, W) -> t_now h = None -> t_left h = [] -> In (s, a) l ->
     chosen rqs (proj (yh_rng w) nv) s = drawn rqs st src s).
Proof.
  intros HM HI Hsrc. split; [apply (agrees_proj nv), agrees_chosen|].
  assert (SZ : forall i me l, nth_error LS i = Some (me, l) -> sized P (chosen rqs (proj (yh_rng w) nv)) l).
  { intros i me l Hi s a Hin. pose proof HS as (_ & _ & _ & _ & _ & Hs & _). destruct (Hs i me l s a Hi Hin) as (b & Hb).
    exact (chosen_bytes C mem LS stk rqs lock fds pos st HS _ s b _ HI (ex_intro _ src Hsrc) Hb). }
  split; [exact SZ|]. intros i me l h U W s a Hi Ht Hn Hl Hin. pose proof HM as (_ & _ & _ & Hok & _).
  destruct (Hok i (me, l) h U W Hi Ht) as (_ & done & _ & Hd & Hnow). rewrite Hn, Hl, app_nil_r in Hnow. cbn [snd] in Hnow. subst done.
  destruct (asks_a a) eqn:Ea.
  - assert (Hret : returned (proj (yh_rng w) nv) s) by (apply (lk_returned_iff (yh_rng w) nv), (Hd s a Hin Ea)).
    rewrite (agrees_chosen rqs (proj (yh_rng w) nv) s Hret). exact (slot_drawn C mem LS stk rqs lock fds pos st HS _ src s HI Hsrc Hret).
  - destruct (set_slot C mem LS stk rqs lock fds st HS ls Hpre i (me, l) s a Hi Hin) as (b & Hb). assert (E0 : takes P a = 0) by (destruct a; try discriminate Ea; reflexivity). rewrite E0 in Hb.
    destruct (Hpre i me l Hi) as (rest & HL). destruct (SZ i me _ HL s a ltac:(apply in_or_app; left; exact Hin)) as (L0 & _). rewrite E0 in L0. unfold drawn. rewrite Hb. change (ztab 0 (fun k => st (src s k))) with (@nil Z).
    destruct (chosen rqs (proj (yh_rng w) nv) s) as [|z y]; [reflexivity|]. rewrite zlen_cons in L0. pose proof (zlen_nonneg y). lia.
Qed.

(** The footprints, and the actions of each thread alone. *)
Definition Rf (i : nat) (x : Z) : Prop := exists me l, nth_error LS i = Some (me, l) /\ uses_at P l x.
Definition Wf (i : nat) (x : Z) : Prop := exists me l, nth_error ls i = Some (me, l) /\ writes_at P l x.
Lemma sub_uses l rest x : (writes_at P l x -> writes_at P (l ++ rest) x) /\ (uses_at P l x -> uses_at P (l ++ rest) x).
Proof. split; intros (s & a & Hin & Hx); exists s, a; (split; [apply in_or_app; left; exact Hin|exact Hx]). Qed.
Lemma alone R : (forall i me l, nth_error LS i = Some (me, l) -> sized P R l) -> forall i me l, nth_error ls i = Some (me, l) ->
  obeys (uses_at P l) (writes_at P l) (script C me R [] l) mem /\
  forall gg, solo (script C me R [] l) mem gg = (ret (repeat 0 (length l)), after_all P (cGen C) R l mem, gg).
Proof.
  pose proof HS as (Va & Hb & Hre & Hord & Hap & _).
  intros HZ i me l Hi. destruct (Hpre i me l Hi) as (rest & HL). apply (script_alone C me Va Hb Hre R l [] mem).
  - intros s a Hin. apply (HZ i me _ HL). apply in_or_app; left; exact Hin.
  - eapply in_order_app. apply (Hord i me _ R HL). apply (HZ i me _ HL).
Qed.
Lemma obey R : (forall i me l, nth_error LS i = Some (me, l) -> sized P R l) -> forall i p, nth_error (scripts C R ls) i = Some p -> obeys (Rf i) (Wf i) p mem.
Proof.
  intros HZ i p Hp. unfold scripts in Hp. rewrite nth_error_map in Hp. destruct (nth_error ls i) as [[me l]|] eqn:Ei; [|discriminate]. injection Hp as <-. cbn [fst snd].
  destruct (alone R HZ i me l Ei) as (O & _). destruct (Hpre i me l Ei) as (rest & HL). eapply obeys_mono; [| |exact O].
  - intros x Hx. exists me, (l ++ rest). split; [exact HL|]. apply sub_uses, Hx.
  - intros x Hx. exists me, l. auto.
Qed.
Lemma apart i j x : i <> j -> Wf i x -> Rf j x -> False.
Proof.
  pose proof HS as (_ & _ & _ & _ & Hap & _). intros Hij (me & l & Hi & Hx) (me' & l' & Hj & Hy). destruct (Hpre i me l Hi) as (rest & HL).
  apply (Hap i j me me' (l ++ rest) l' x Hij HL Hj); [apply sub_uses, Hx|exact Hy].
Qed.
Lemma written_used l x : writes_at P l x -> uses_at P l x.
Proof. intros (s & a & Hin & (b & n & H1 & H2)). exists s, a. split; [exact Hin|]. exists b, n. split; [unfold used; apply in_or_app; left; exact H1|exact H2]. Qed.
Lemma sub_foot i x : Wf i x -> Rf i x.
Proof. intros (me & l & Hi & Hx). destruct (Hpre i me l Hi) as (rest & HL). exists me, (l ++ rest). split; [exact HL|]. apply sub_uses, written_used, Hx. Qed.

(** What the messages say of a thread that has done all its actions, and of the others. *)
Lemma hview s1 w nv src : hsim s1 w -> rinv st stk pos rqs (proj (yh_rng w) nv) -> sources rqs st pos (proj (yh_rng w) nv) src ->
  (forall i h U W, nth_error (yh_thr w) i = Some (h, U, W) ->
     t_codes h = repeat 0 (length (t_codes h)) /\ (forall s e, t_now h <> Some (s, After (Fault e))) /\ (forall s e k, t_now h <> Some (s, Before (Fault e) k))) /\
  (forall i me l h U W x, nth_error ls i = Some (me, l) -> nth_error (yh_thr w) i = Some (h, U, W) -> t_now h = None -> t_left h = [] -> 0 <= x < zlen mem -> Rf i x ->
     lookup (yh_msgs w) x (U x) = Some (znth (after_all P (cGen C) (drawn rqs st src) l mem) x) /\ forall t, U x < t -> lookup (yh_msgs w) x t = None) /\
  exists mem', zlen mem' = zlen mem /\ shows (yh_msgs w) (hjoined V w) mem' /\
    (forall x, 0 <= x < zlen mem -> (forall i, ~ Wf i x) -> znth mem' x = znth mem x) /\
    forall i me l h U W x, nth_error ls i = Some (me, l) -> nth_error (yh_thr w) i = Some (h, U, W) -> t_now h = None -> t_left h = [] -> 0 <= x < zlen mem -> Rf i x ->
      znth mem' x = znth (after_all P (cGen C) (drawn rqs st src) l mem) x.
Proof.
  intros HM HI Hsrc. destruct (picked s1 w nv src HM HI Hsrc) as (HA & HZ & HE). set (R := chosen rqs (proj (yh_rng w) nv)) in *.
  pose proof HM as (_ & Lx & _ & _ & _ & Hk). destruct (Hk R HA) as (thr & E & Hsm). pose proof Hsm as (L & Hrel).
  assert (E0 : hfirst C (zlen mem) ms V ls R = RelaxedProofs.rstart _ (scripts C R ls) mem V ms) by reflexivity. rewrite E0 in E.
  assert (IL : forall i x, nth_error (yh_thr w) i = Some x -> exists me l, nth_error ls i = Some (me, l)).
  { intros i x Hx. assert (i < length ls)%nat by (rewrite <- Lx; apply nth_error_Some; congruence). destruct (nth_error ls i) as [[me l]|] eqn:Ei; [eauto|apply nth_error_None in Ei; lia]. }
  assert (TH : forall i me l, nth_error ls i = Some (me, l) -> nth_error (scripts C R ls) i = Some (script C me R [] l)) by (intros i me l Hi; unfold scripts; rewrite nth_error_map, Hi; reflexivity).
  pose proof (RelaxedProofs.rinv_exec _ (scripts C R ls) Rf Wf mem V ms sub_foot apart s1 _ (RelaxedProofs.rinv_init _ (scripts C R ls) Rf Wf mem V ms (obey R HZ) HV)) as (_ & _ & Dom & Th). rewrite E in Dom, Th. cbn [rx_thr rx_msgs] in Dom, Th.
  destruct (RelaxedProofs.rx_interleave _ (scripts C R ls) Rf Wf mem V ms (obey R HZ) sub_foot apart HV s1) as (_ & (mem' & Lm & Sh & Old & New) & _). rewrite E in Sh, New. cbn [rx_thr rx_msgs] in Sh, New.
  assert (AT : forall i h U W, nth_error (yh_thr w) i = Some (h, U, W) -> exists p, nth_error thr i = Some (p, U) /\ rel C R h p).
  { intros i h U W Hi. destruct (nth_error thr i) as [[p U']|] eqn:Ep.
    - destruct (Hrel i h U W _ Hi Ep) as (X & Y). cbn [fst snd] in X, Y. subst U'. eauto.
    - apply nth_error_None in Ep. assert (i < length ls)%nat by (rewrite <- Lx; apply nth_error_Some; congruence). lia. }
  assert (END : forall i me l h U W, nth_error ls i = Some (me, l) -> nth_error (yh_thr w) i = Some (h, U, W) -> t_now h = None -> t_left h = [] ->
    after_all P (cGen C) R l mem = after_all P (cGen C) (drawn rqs st src) l mem).
  { intros i me l h U W Hi Ht H1 H2. apply after_all_ext. intros s a Hin. exact (HE i me l h U W s a Hi Ht H1 H2 Hin). }
  split; [|split].
  - intros i h U W Hi. destruct (IL i _ Hi) as (me & l & Hl). destruct (AT i h U W Hi) as (p & Hp & Hr). destruct (Th i _ p U (TH i me l Hl) Hp) as (m & _ & _ & Hs & _).
    rewrite (proj2 (alone R HZ i me l Hl) 0) in Hs.
    assert (PRE : forall c x n, c ++ x = repeat 0 n -> c = repeat 0 (length c)).
    { intros c x n Hc. assert (A : Forall (fun z => z = 0) (c ++ x)) by (rewrite Hc; clear; induction n; cbn; constructor; auto).
      apply Forall_app in A. destruct A as (A & _). clear - A. induction A as [|z c Hz A IH]; cbn; congruence. }
    unfold rel in Hr. destruct h as [me' n left codes]. cbn [t_now t_codes t_left t_me] in *. destruct n as [[s ph]|].
    + assert (Q : exists q : prog Z, p = pbind q (fun v => script C me' R (codes ++ [v]) left) /\
          (forall e, ph = After (Fault e) -> q = Fault e) /\ (forall e k, ph = Before (Fault e) k -> q = Fault e)).
      { destruct ph as [q k|k|q]; eexists; (split; [exact Hr|]); split; intros; try discriminate; try congruence. injection H as -> ->. reflexivity. }
      destruct Q as (q & -> & Q1 & Q2). rewrite solo_bind in Hs. destruct (solo q m 0) as [[[v tr|e] m1] g1] eqn:Eq; [|discriminate].
      destruct (script_codes C me' _ _ _ _ _ _ _ _ Hs) as (x & Hx). rewrite <- app_assoc in Hx. symmetry in Hx. split; [eapply PRE; exact Hx|].
      split; intros; intros Ef; injection Ef as -> ->; [rewrite (Q1 e eq_refl) in Eq|rewrite (Q2 e k eq_refl) in Eq]; discriminate.
    + subst p. destruct (script_codes C me' _ _ _ _ _ _ _ _ Hs) as (x & Hx). split; [eapply PRE; symmetry; exact Hx|]. split; discriminate.
  - intros i me l h U W x Hl Hi H1 H2 Hx HR. destruct (AT i h U W Hi) as (p & Hp & Hr). destruct (Th i _ p U (TH i me l Hl) Hp) as (m & _ & _ & Hs & Hm & _).
    rewrite (proj2 (alone R HZ i me l Hl) 0) in Hs. unfold rel in Hr. rewrite H1, H2 in Hr. cbn [script] in Hr. subst p. cbn in Hs. injection Hs as _ Hs. rewrite <- (END i me l h U W Hl Hi H1 H2), <- Hs. exact (Hm x Hx HR).
  - exists mem'. split; [exact Lm|]. split; [|split].
    + intros a Ha. rewrite <- (joined_hsame C ls V R w thr Lx Hsm a). exact (Sh a Ha).
    + intros x Hx Hno. apply Old; [exact Hx|]. intros i p _. apply Hno.
    + intros i me l h U W x Hl Hi H1 H2 Hx HR. destruct (AT i h U W Hi) as (p & Hp & Hr). unfold rel in Hr. rewrite H1, H2 in Hr. cbn [script] in Hr. subst p.
      destruct (New i _ _ U _ (TH i me l Hl) Hp eq_refl) as (m' & (Hs & _) & Hm). rewrite (proj2 (alone R HZ i me l Hl) 0) in Hs. injection Hs as _ Hs.
      rewrite (Hm x Hx HR), <- Hs. f_equal. exact (END i me l h U W Hl Hi H1 H2).
Qed.
End Run.

(** ** A thread that stops after n of its actions *)
Lemma nth_error_ext_map {A B} (f : A -> B) : forall l m, length l = length m -> (forall j x y, nth_error l j = Some x -> nth_error m j = Some y -> f x = f y) -> map f l = map f m.
Proof.
  induction l as [|x l IH]; intros [|y m] L H; cbn in L; try discriminate; [reflexivity|]. cbn [map]. f_equal; [apply (H O); reflexivity|]. apply IH; [lia|]. intros j. exact (H (Datatypes.S j)).
Qed.
Section Cut.
Variables (C : config) (st : Z -> Z) (rqs : list (Z * Z)) (i n : nat) (tail : list (nat * action)).
(** In v, thread i lacks the actions of tail. *)
Definition ycut (w v : yhworld) : Prop :=
  yh_len w = yh_len v /\ yh_msgs w = yh_msgs v /\ yh_rng w = yh_rng v /\ (forall j, j <> i -> nth_error (yh_thr w) j = nth_error (yh_thr v) j) /\
  exists me now left codes V U, nth_error (yh_thr v) i = Some (mkt me now left codes, V, U) /\ nth_error (yh_thr w) i = Some (mkt me now (left ++ tail) codes, V, U) /\
    (length codes + (match now with None => 0 | _ => 1 end) + length left)%nat = n.
Definition ypast (w : yhworld) : Prop := exists h V U, nth_error (yh_thr w) i = Some (h, V, U) /\ (n < length (t_codes h) \/ length (t_codes h) = n /\ t_now h <> None)%nat.

(** What a turn does, thread by thread. *)
Lemma turn_thread x w : let w' := yh_turn C st rqs x w in
  (forall j, j <> fst (fst x) -> nth_error (yh_thr w') j = nth_error (yh_thr w) j) /\
  forall h V U, nth_error (yh_thr w) (fst (fst x)) = Some (h, V, U) -> exists h' V' U', nth_error (yh_thr w') (fst (fst x)) = Some (h', V', U') /\
    match t_now h with
    | None => (t_left h = [] /\ h' = h) \/ (t_codes h' = t_codes h /\ t_now h' <> None)
    | Some _ => (t_codes h' = t_codes h /\ t_now h' <> None) \/ (t_now h' = None /\ exists v, t_codes h' = t_codes h ++ [v])
    end.
Proof.
  destruct x as [[j a] t]. cbn [fst]. unfold yh_turn. destruct (nth_error (yh_thr w) j) as [[[h V] U]|] eqn:Ej; [|split; [reflexivity|discriminate]].
  assert (K : forall h' V' U' ms r, 
    match t_now h with
    | None => (t_left h = [] /\ h' = h) \/ (t_codes h' = t_codes h /\ t_now h' <> None)
    | Some _ => (t_codes h' = t_codes h /\ t_now h' <> None) \/ (t_now h' = None /\ exists v, t_codes h' = t_codes h ++ [v])
    end -> let w' := mkyh (yh_len w) ms (set_yh (yh_thr w) j (h', V', U')) r in
    (forall k, k <> j -> nth_error (yh_thr w') k = nth_error (yh_thr w) k) /\
    forall h0 V0 U0, Some (h, V, U) = Some (h0, V0, U0) -> exists h' V' U', nth_error (yh_thr w') j = Some (h', V', U') /\
      match t_now h0 with
      | None => (t_left h0 = [] /\ h' = h0) \/ (t_codes h' = t_codes h0 /\ t_now h' <> None)
      | Some _ => (t_codes h' = t_codes h0 /\ t_now h' <> None) \/ (t_now h' = None /\ exists v, t_codes h' = t_codes h0 ++ [v])
      end).
  { intros h' V' U' ms r H w'. split; [intros k Hk; apply nth_yh_ne; congruence|]. intros h0 V0 U0 E. injection E as <- <- <-. exists h', V', U'. split; [eapply nth_yh_eq, Ej|exact H]. }
  assert (I : forall r, match t_now h with None => t_left h = [] | Some _ => True end -> let w' := mkyh (yh_len w) (yh_msgs w) (yh_thr w) r in
    (forall k, k <> j -> nth_error (yh_thr w') k = nth_error (yh_thr w) k) /\
    forall h0 V0 U0, Some (h, V, U) = Some (h0, V0, U0) -> exists h' V' U', nth_error (yh_thr w') j = Some (h', V', U') /\
      match t_now h0 with
      | None => (t_left h0 = [] /\ h' = h0) \/ (t_codes h' = t_codes h0 /\ t_now h' <> None)
      | Some _ => (t_codes h' = t_codes h0 /\ t_now h' <> None) \/ (t_now h' = None /\ exists v, t_codes h' = t_codes h0 ++ [v])
      end).
  { intros r H w'. split; [reflexivity|]. intros h0 V0 U0 E. injection E as <- <- <-. exists h, V, U. split; [exact Ej|]. destruct (t_now h); [left; split; [reflexivity|congruence]|left; auto]. }
  destruct w as [len msgs thr rng]. cbn [yh_len yh_msgs yh_thr yh_rng] in *.
  destruct h as [me nw left codes]. cbn [t_now t_left t_me t_codes] in *. destruct nw as [[s ph]|].
  - destruct ph as [p k|k|p].
    + destruct p; try (destruct (access _ _ _ _ _) as [[? ?] ?]); refine (K _ _ _ msgs rng _); cbn; left; split; congruence.
    + destruct (nth_error (lk_calls rng) s) as [[c W]|], (nth_error rqs s) as [[b m]|]; try exact (I rng Logic.I). destruct (rc_pc c); try exact (I rng Logic.I); refine (K _ _ _ msgs rng _); cbn; left; split; congruence.
    + destruct p; try (destruct (access _ _ _ _ _) as [[? ?] ?]); refine (K _ _ _ msgs rng _); cbn; [right; split; [reflexivity|eexists; reflexivity]|left; split; congruence..].
  - destruct left as [|[s ac] left]; [exact (I rng eq_refl)|]. refine (K _ _ _ msgs rng _). cbn. right. split; congruence.
Qed.
Lemma ypast_turn x w : ypast w -> ypast (yh_turn C st rqs x w).
Proof.
  intros (h & V & U & Hh & Hp). destruct (turn_thread x w) as (HO & HT). destruct (Nat.eq_dec i (fst (fst x))) as [E|Hn]; [|exists h, V, U; rewrite HO by exact Hn; auto].
  unfold ypast. rewrite E in *. clear E.
  destruct (HT h V U Hh) as (h' & V' & U' & Hh' & H). exists h', V', U'. split; [exact Hh'|]. destruct (t_now h) as [z|].
  - destruct H as [(E & N)|(E & v & Ec)]; [rewrite E; destruct Hp as [Hp|(Hp & _)]; [left; exact Hp|right; auto]|left; rewrite Ec, app_length; cbn; destruct Hp as [Hp|(Hp & _)]; lia].
  - destruct Hp as [Hp|(_ & Hp)]; [|congruence]. destruct H as [(_ & ->)|(-> & _)]; left; exact Hp.
Qed.
Lemma ycut_turn x w v : ycut w v -> ycut (yh_turn C st rqs x w) (yh_turn C st rqs x v) \/ ypast (yh_turn C st rqs x w).
Proof.
  intros (E1 & E2 & E3 & HO & me & nw & left & codes & V & U & Hv & Hw & Hc). destruct x as [[j a] t].
  destruct w as [len msgs thr rng], v as [len' msgs' thr' rng']. cbn [yh_len yh_msgs yh_thr yh_rng] in *. subst len' msgs' rng'. unfold yh_turn. cbn [yh_len yh_msgs yh_thr yh_rng].
  destruct (Nat.eq_dec j i) as [->|Hn].
  2:{ left. rewrite (HO j Hn).
      assert (KEEP : forall r, ycut (mkyh len msgs thr r) (mkyh len msgs thr' r)) by (intros r; unfold ycut; cbn; repeat (split; [reflexivity|]); split; [exact HO|exists me, nw, left, codes, V, U; auto]).
      destruct (nth_error thr' j) as [[[h2 V2] U2]|] eqn:Ej; [|apply KEEP].
      assert (K : forall y ms r, ycut (mkyh len ms (set_yh thr j y) r) (mkyh len ms (set_yh thr' j y) r)).
      { intros y ms' r. unfold ycut. cbn [yh_len yh_msgs yh_thr yh_rng]. repeat (split; [reflexivity|]).
        split; [|exists me, nw, left, codes, V, U; rewrite !nth_yh_ne by congruence; auto].
        intros k Hk. destruct (Nat.eq_dec j k) as [<-|Hjk]; [rewrite (nth_yh_eq _ _ _ _ Ej); rewrite <- (HO j Hn) in Ej; rewrite (nth_yh_eq _ _ _ _ Ej); reflexivity|].
        rewrite !nth_yh_ne by exact Hjk. apply HO, Hk. }
      destruct (t_now h2) as [[s [p k|k|p]]|].
      - destruct p; try (destruct (access _ _ _ _ _) as [[? ?] ?]); apply K.
      - destruct (nth_error (lk_calls rng) s) as [[c W]|], (nth_error rqs s) as [[b m]|]; try apply KEEP. destruct (rc_pc c); try apply KEEP; apply K.
      - destruct p; try (destruct (access _ _ _ _ _) as [[? ?] ?]); apply K.
      - destruct (t_left h2) as [|[s ac] l2]; [apply KEEP|apply K]. }
  rewrite Hv, Hw.
  assert (K : forall me' nw' left' codes' V' U' ms' r', (length codes' + (match nw' with None => 0 | _ => 1 end) + length left')%nat = n ->
    ycut (mkyh len ms' (set_yh thr i (mkt me' nw' (left' ++ tail) codes', V', U')) r') (mkyh len ms' (set_yh thr' i (mkt me' nw' left' codes', V', U')) r')).
  { intros. unfold ycut. cbn [yh_len yh_msgs yh_thr yh_rng]. repeat (split; [reflexivity|]). split; [intros k Hk; rewrite !nth_yh_ne by congruence; apply HO, Hk|].
    exists me', nw', left', codes', V', U'. rewrite (nth_yh_eq _ _ _ _ Hv), (nth_yh_eq _ _ _ _ Hw). auto. }
  assert (KEEP : forall r, ycut (mkyh len msgs thr r) (mkyh len msgs thr' r)) by (intros r; unfold ycut; cbn; repeat (split; [reflexivity|]); split; [exact HO|exists me, nw, left, codes, V, U; auto]).
  unfold now. cbn [t_now t_left t_me t_codes].
  destruct nw as [[s ph]|].
  - left. destruct ph as [p k|k|p].
    + destruct p; try (destruct (access _ _ _ _ _) as [[? ?] ?]); apply K; exact Hc.
    + destruct (nth_error (lk_calls rng) s) as [[c W]|], (nth_error rqs s) as [[b m]|]; try apply KEEP. destruct (rc_pc c); try apply KEEP; apply K; exact Hc.
    + destruct p; try (destruct (access _ _ _ _ _) as [[? ?] ?]); apply K; try exact Hc. rewrite app_length. cbn in *. lia.
  - destruct left as [|[s ac] left]; cbn [app].
    + destruct tail as [|[s ac] tl].
      * left. apply KEEP.
      * right. eexists; eexists; eexists. cbn [yh_thr]. split; [eapply nth_yh_eq, Hw|]. cbn in *. right. split; [lia|discriminate].
    + left. apply K. cbn in *. lia.
Qed.
Lemma ycut_exec sched : forall w v, ycut w v -> ycut (yh_exec C st rqs sched w) (yh_exec C st rqs sched v) \/ ypast (yh_exec C st rqs sched w).
Proof.
  induction sched as [|x sched IH]; intros w v H; [left; exact H|]. cbn [yh_exec fold_left]. destruct (ycut_turn x w v H) as [H'|H']; [apply IH, H'|]. right.
  revert H'. generalize (yh_turn C st rqs x w). clear. induction sched as [|x sched IH]; intros w H; [exact H|]. cbn [fold_left]. apply IH, ypast_turn, H.
Qed.
Lemma ycut_joined V w v : length (yh_thr w) = length (yh_thr v) -> ycut w v -> forall a, hjoined V w a = hjoined V v a.
Proof.
  intros L (_ & _ & _ & HO & me & nw & left & codes & Vi & U & Hv & Hw & _) a. unfold hjoined. f_equal. apply nth_error_ext_map; [exact L|].
  intros j x y Hx Hy. destruct (Nat.eq_dec j i) as [->|Hj]; [|].
  - pose proof (eq_trans (eq_sym Hx) Hw) as Ex. pose proof (eq_trans (eq_sym Hy) Hv) as Ey. injection Ex as ->. injection Ey as ->. reflexivity.
  - pose proof (eq_trans (eq_trans (eq_sym Hx) (HO j Hj)) Hy) as Ex. injection Ex as ->. reflexivity.
Qed.
End Cut.

(** ** Any number of threads, each of which does any list of actions (calls of the API, and stores), started by a thread for
    which the memory is mem and which knows of the newest value of [lock]; every schedule, every choice of the messages that
    the loads take and of the times of the stores, every behaviour of the operating system; every parameter set and every
    build without the portable AES in use.
    - No thread runs into undefined behaviour, and all calls that have returned have returned 0.
    - A thread that has done the first n of its actions, and everybody who knows what it knows, reads at all addresses that it
      uses what FrodoKEM prescribes for these actions one after the other, with random bytes of the device.
    - The random bytes of an action are bytes of the device's stream at increasing positions; no byte of the stream is used
      twice, by whichever threads and actions.
    - For one who knows what all threads know the memory is again one memory: where no thread writes it has the old bytes,
      and where a thread that is between two actions reads or writes it has what FrodoKEM prescribes. *)
Theorem C54_histories : forall C mem ms V ls stk rqs lms T lock fds pos st,
  setting C mem ls stk rqs lock fds st -> shows ms V mem -> newest_is lms T lock ->
  forall sched, let P := cP C in let w := yh_exec C st rqs sched (hbegin mem ms V ls stk rqs lms T fds pos) in
  (forall i, ~ yfaulted w i) /\
  (forall i h v U, nth_error (yh_thr w) i = Some (h, v, U) -> t_codes h = repeat 0 (length (t_codes h))) /\
  exists src : nat -> Z -> Z,
    (forall i me l n v x, nth_error ls i = Some (me, l) -> ybetween w i n v -> 0 <= x < zlen mem -> uses_at P l x ->
       let b := znth (after_all P (cGen C) (drawn rqs st src) (firstn n l) mem) x in
       readable (yh_msgs w) v x b /\ forall U y, (forall a, v a <= U a) -> readable (yh_msgs w) U x y -> y = b) /\
    (forall i n s a, ydid w ls i n s a -> forall k, 0 <= k < takes P a -> pos <= src s k < lk_pos (yh_rng w)) /\
    (forall i n s a, ydid w ls i n s a -> forall k k', 0 <= k < k' -> k' < takes P a -> src s k < src s k') /\
    (forall i n s a j m s' b, ydid w ls i n s a -> ydid w ls j m s' b -> (i, n) <> (j, m) ->
       forall k k', 0 <= k < takes P a -> 0 <= k' < takes P b -> src s k <> src s' k') /\
    exists mem', zlen mem' = zlen mem /\ shows (yh_msgs w) (hjoined V w) mem' /\
      (forall x, 0 <= x < zlen mem -> (forall i me l, nth_error ls i = Some (me, l) -> ~ writes_at P l x) -> znth mem' x = znth mem x) /\
      forall i me l n v x, nth_error ls i = Some (me, l) -> ybetween w i n v -> 0 <= x < zlen mem -> uses_at P l x ->
        znth mem' x = znth (after_all P (cGen C) (drawn rqs st src) (firstn n l) mem) x.
Proof.
  intros C mem ms V ls stk rqs lms T lock fds pos st HS HV HN sched P w.
  assert (Hpre : forall i me l, nth_error ls i = Some (me, l) -> exists rest, nth_error ls i = Some (me, l ++ rest)) by (intros i me l H; exists []; rewrite app_nil_r; exact H).
  destruct (hsim_run C mem ms V ls stk rqs lms T lock fds pos st HS HN ls Hpre sched) as (s1 & HM). fold w in HM.
  destruct (ysrc C mem ms V stk rqs T pos st ls s1 w HM) as (nv & HI & src & Hsrc).
  destruct (hview C mem ms V ls stk rqs T lock fds pos st HS HV ls Hpre s1 w nv src HM HI Hsrc) as (F & _ & (mem' & Lm & Sh & Old & _)).
  split; [|split].
  { intros i (h & v & U & s & e & Hi & Hf). destruct (F i h v U Hi) as (_ & F1 & F2). destruct Hf as [Hf|(k & Hf)]; [exact (F1 _ _ Hf)|exact (F2 _ _ _ Hf)]. }
  { intros i h v U Hi. apply (F i h v U Hi). }
  exists src.
  (* a thread between two actions: as if it had only the first n *)
  assert (MID : forall i me l n v x, nth_error ls i = Some (me, l) -> ybetween w i n v -> 0 <= x < zlen mem -> uses_at P l x ->
    let b := znth (after_all P (cGen C) (drawn rqs st src) (firstn n l) mem) x in
    lookup (yh_msgs w) x (v x) = Some b /\ (forall t, v x < t -> lookup (yh_msgs w) x t = None) /\ znth mem' x = b).
  { intros i me l n v x Hi (h & U & Hh & Hnow & Hn) Hx Hu. set (k := firstn n l).
    assert (Ln : (n <= length l)%nat).
    { destruct HM as (_ & _ & _ & Hok & _). destruct (Hok i (me, l) h v U Hi Hh) as (_ & done & Ld & _ & Hl). rewrite Hnow in Hl. cbn [snd] in Hl. rewrite Hl, app_length. lia. }
    set (cutl := fix cutl (ls : list (Z * list (nat * action))) (i : nat) := match ls, i with [], _ => [] | _ :: ls, O => (me, k) :: ls | z :: ls, S i => z :: cutl ls i end).
    assert (C1 : forall LS j, nth_error LS j = Some (me, l) -> nth_error (cutl LS j) j = Some (me, k)) by (induction LS as [|z LS IH]; intros [|j] H; cbn in *; try discriminate; auto).
    assert (C2 : forall LS j q, q <> j -> nth_error (cutl LS j) q = nth_error LS q) by (induction LS as [|z LS IH]; intros [|j] [|q] H; cbn in *; auto; congruence).
    assert (C3 : forall LS j, length (cutl LS j) = length LS) by (induction LS as [|z LS IH]; intros [|j]; cbn; auto).
    assert (Hpre' : forall j me' l', nth_error (cutl ls i) j = Some (me', l') -> exists rest, nth_error ls j = Some (me', l' ++ rest)).
    { intros j me' l' H. destruct (Nat.eq_dec j i) as [->|Hj]; [|rewrite C2 in H by exact Hj; exists []; rewrite app_nil_r; exact H].
      rewrite (C1 ls i Hi) in H. injection H as <- <-. exists (skipn n l). unfold k. rewrite firstn_skipn. exact Hi. }
    set (u := yh_exec C st rqs sched (hbegin mem ms V (cutl ls i) stk rqs lms T fds pos)).
    destruct (hsim_run C mem ms V ls stk rqs lms T lock fds pos st HS HN (cutl ls i) Hpre' sched) as (r1 & HMu). fold u in HMu.
    destruct (ycut_exec C st rqs i n (skipn n l) sched (hbegin mem ms V ls stk rqs lms T fds pos) (hbegin mem ms V (cutl ls i) stk rqs lms T fds pos)) as [HC|HC].
    { unfold hbegin, yh_start, ycut. cbn [yh_len yh_msgs yh_rng yh_thr]. repeat (split; [reflexivity|]). split; [intros j Hj; rewrite !nth_error_map, C2 by exact Hj; reflexivity|].
      exists me, None, k, [], V, T. rewrite !nth_error_map, Hi, (C1 ls i Hi). split; [reflexivity|]. split; [cbn; unfold fresh, k; cbn; rewrite firstn_skipn; reflexivity|]. cbn. unfold k. rewrite firstn_length. lia. }
    2:{ destruct HC as (h' & v' & U' & Hh' & Hp). fold w in Hh'. rewrite Hh in Hh'. injection Hh' as <- _ _. destruct Hp as [Hp|(_ & Hp)]; [lia|congruence]. }
    fold w u in HC. assert (LL : length (yh_thr w) = length (yh_thr u)) by (destruct HM as (_ & -> & _); destruct HMu as (_ & -> & _); symmetry; apply C3).
    pose proof (ycut_joined i n (skipn n l) V w u LL HC) as EJ.
    destruct HC as (_ & M2 & M3 & _ & me' & nw & left & codes & V' & U' & Hv & Hw & Hc). rewrite Hh in Hw. injection Hw as -> <- <-. cbn in Hnow, Hn. subst nw.
    assert (left = []) as -> by (destruct left; [reflexivity|cbn in Hc; lia]).
    assert (HI' : rinv st stk pos rqs (proj (yh_rng u) nv)) by (rewrite <- M3; exact HI). assert (Hs' : sources rqs st pos (proj (yh_rng u) nv) src) by (rewrite <- M3; exact Hsrc).
    destruct (hview C mem ms V ls stk rqs T lock fds pos st HS HV (cutl ls i) Hpre' r1 u nv src HMu HI' Hs') as (_ & G & (mem2 & Lm2 & Sh2 & _ & G2)).
    assert (HR : Rf C ls i x) by (exists me, l; auto).
    destruct (G i me k _ v U x (C1 ls i Hi) Hv eq_refl eq_refl Hx HR) as (G3 & G4). rewrite M2. split; [exact G3|]. split; [exact G4|].
    transitivity (znth mem2 x); [|exact (G2 i me k _ v U x (C1 ls i Hi) Hv eq_refl eq_refl Hx HR)].
    destruct (Sh x ltac:(lia)) as (X1 & _). destruct (Sh2 x ltac:(lia)) as (X2 & _). rewrite <- EJ, <- M2, X1 in X2. congruence. }
  split.
  { intros i me l n v x Hi Hb Hx Hu b. destruct (MID i me l n v x Hi Hb Hx Hu) as (A1 & A2 & _). fold b in A1. split; [exists (v x); split; [lia|exact A1]|].
    intros U y HU (t & Ht & Hy). specialize (HU x). destruct (Z.eq_dec t (v x)) as [->|]; [congruence|]. rewrite A2 in Hy by lia. discriminate. }
  assert (RET : forall i n s a, ydid w ls i n s a -> exists b, nth_error rqs s = Some (b, takes P a) /\ (0 < takes P a -> returned (proj (yh_rng w) nv) s)).
  { intros i n s a (me & l & h & v & U & Hi & Ht & Hl & Hn). destruct HS as (_ & _ & _ & _ & _ & Hs & _). destruct (Hs i me l s a Hi (nth_error_In _ _ Hl)) as (b & Hb). exists b. split; [exact Hb|].
    intros Hpos. apply (lk_returned_iff (yh_rng w) nv). destruct HM as (_ & _ & _ & Hok & _). destruct (Hok i (me, l) h v U Hi Ht) as (_ & done & Ld & Hd & Hnow). apply (Hd s a).
    - cbn [snd] in Hnow. assert (X : exists rest, l = done ++ rest) by (destruct (t_now h) as [[? ?]|]; [destruct Hnow as (? & H & _)|]; eauto). destruct X as (rest & ->).
      rewrite nth_error_app1 in Hl by lia. apply (nth_error_In _ _ Hl).
    - destruct a; cbn in *; auto; lia. }
  destruct Hsrc as (A1 & A2 & A3). split; [|split; [|split]].
  - intros i n s a Hd k Hk. destruct (RET i n s a Hd) as (b & Hb & Hr). apply (A1 s b _ Hb (Hr ltac:(lia)) k Hk).
  - intros i n s a Hd k k' Hk Hk'. destruct (RET i n s a Hd) as (b & Hb & Hr). apply (A2 s b _ Hb (Hr ltac:(lia)) k k' Hk Hk').
  - intros i n s a j m s' b Hd Hd' Hne k k' Hk Hk'. destruct (RET i n s a Hd) as (bb & Hb & Hr). destruct (RET j m s' b Hd') as (bb' & Hb' & Hr').
    assert (Hss : s <> s').
    { intros <-. destruct Hd as (me & l & h & ? & ? & Hi & _ & Hl & _). destruct Hd' as (me' & l' & h' & ? & ? & Hj & _ & Hl' & _). destruct HS as (_ & _ & _ & _ & _ & _ & ND & _).
      destruct (nodup_pos ls i j n m (me, l) (me', l') s ND Hi Hj) as (-> & ->); [cbn; rewrite nth_error_map, Hl; reflexivity|cbn; rewrite nth_error_map, Hl'; reflexivity|apply Hne; reflexivity]. }
    apply (A3 s s' _ _ _ _ Hss Hb Hb' (Hr ltac:(lia)) (Hr' ltac:(lia)) k k' Hk Hk').
  - exists mem'. split; [exact Lm|]. split; [exact Sh|]. split.
    + intros x Hx Hno. apply Old; [exact Hx|]. intros i (me & l & Hi & Hw). exact (Hno i me l Hi Hw).
    + intros i me l n v x Hi Hb Hx Hu. apply (MID i me l n v x Hi Hb Hx Hu).
Qed.
Print Assumptions C54_histories.

(** The hypotheses can be met. *)
Example C54_histories_hyps : setting C976 mem3 ls976 (zrep 300 0) rqs976 (-1) [] (fun p => (p * p + 7) mod 256) /\
  shows (first_messages mem3 0) (fun _ => 0) mem3 /\ newest_is [(lock_at, 0, -1)] 0 (-1).
Proof. split; [exact C45_hyps|]. split; [apply RelaxedProofs.first_shows|]. destruct C55_hyps as (_ & _ & H'). exact H'. Qed.
