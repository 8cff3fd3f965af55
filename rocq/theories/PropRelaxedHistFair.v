(** Property C54 for threads that use the library again and again on a machine with relaxed memory, under
    every fair schedule: schedules without end in which every thread keeps getting turns and every store of
    [lock] is seen after some time. *)
From Verif Require RelaxedProofs.
From Verif Require Import CSem Params FrodoSpec Macrify Kem KemWp PropKem Conc ConcProofs ConcKem Random ConcRandom ConcRandomProofs PropConcRandom ConcLib ConcLibProofs Process PropProcess
  PropConcKem ConcHist ConcHistProofs PropConcHist Relaxed RelaxedRandom PropRelaxedRandom RelaxedLib RelaxedLibProofs RelaxedHist RelaxedHistProofs PropRelaxedHist PropRelaxedLib RelaxedFair PropRelaxedFair.

(** Thread i has done all its actions. *)
Definition ydone (w : yhworld) (i : nat) : Prop := exists h V U, nth_error (yh_thr w) i = Some (h, V, U) /\ t_now h = None /\ t_left h = [].
(** [w n]: the world before turn n.  Every message for [lock] that is there at some moment is old news from some moment on:
    no load of [lock] that takes place then takes an older one. *)
Definition hseen_in_time (w : nat -> yhworld) (f : nat -> nat * answer * Z) : Prop :=
  forall n u, lookup (lk_msgs (yh_rng (w n))) lock_at u <> None -> exists N, forall m h V U s k c W, (N <= m)%nat ->
    nth_error (yh_thr (w m)) (fst (fst (f m))) = Some (h, V, U) -> t_now h = Some (s, Asking k) -> nth_error (lk_calls (yh_rng (w m))) s = Some (c, W) ->
    use_of (rc_pc c) = Loads -> w (Datatypes.S m) <> w m -> u <= snd (f m).

Lemma done_dec w i : (i < length (yh_thr w))%nat -> ydone w i \/ ~ ydone w i.
Proof.
  intros Hi. unfold ydone. destruct (nth_error (yh_thr w) i) as [[[h V] U]|] eqn:E; [|apply nth_error_None in E; lia].
  destruct (t_now h) eqn:En; [right; intros (h' & V' & U' & H & H1 & _); congruence|]. destruct (t_left h) eqn:El; [left; exists h, V, U; auto|right; intros (h' & V' & U' & H & _ & H2); congruence].
Qed.
(** All threads together. *)
Definition total (l : list (hthread * view * Z)) : nat := list_sum (map (fun x => stage (fst (fst x))) l).
Lemma total_le l l' : length l = length l' -> (forall i x y, nth_error l i = Some x -> nth_error l' i = Some y -> (stage (fst (fst x)) <= stage (fst (fst y)))%nat) -> (total l <= total l')%nat.
Proof.
  revert l'. induction l as [|x l IH]; intros [|y l'] L H; cbn in L; try discriminate; [cbn; lia|]. unfold total in *. cbn [map list_sum fold_right]. pose proof (H 0%nat x y eq_refl eq_refl). specialize (IH l' ltac:(lia) (fun i => H (Datatypes.S i))). unfold list_sum in IH. lia.
Qed.
Lemma total_lt l l' j : length l = length l' -> (forall i x y, nth_error l i = Some x -> nth_error l' i = Some y -> (stage (fst (fst x)) <= stage (fst (fst y)))%nat) ->
  (exists x y, nth_error l j = Some x /\ nth_error l' j = Some y /\ (stage (fst (fst x)) < stage (fst (fst y)))%nat) -> (total l < total l')%nat.
Proof.
  revert l' j. induction l as [|x l IH]; intros [|y l'] [|j] L H (x1 & y1 & E1 & E2 & E3); cbn in L; try discriminate; unfold total in *; cbn [map list_sum fold_right].
  - injection E1 as ->. injection E2 as ->. pose proof (total_le l l' ltac:(lia) (fun i => H (Datatypes.S i))) as T. unfold total, list_sum in T. lia.
  - pose proof (H 0%nat x y eq_refl eq_refl). specialize (IH l' j ltac:(lia) (fun i => H (Datatypes.S i)) ltac:(eauto)). unfold list_sum in IH. lia.
Qed.

(** What a turn does. *)
Definition onward_h (n n' : option (nat * phase)) : Prop :=
  exists s, (exists p p' k, n = Some (s, Before p k) /\ n' = Some (s, Before p' k) /\ child p' p) \/ (exists p p', n = Some (s, After p) /\ n' = Some (s, After p') /\ child p' p).
Lemma turn_does C st rqs i a t w h V U : nth_error (yh_thr w) i = Some (h, V, U) -> let w' := yh_turn C st rqs (i, a, t) w in
  w' = w \/
  (exists h' V' U', nth_error (yh_thr w') i = Some (h', V', U') /\ length (yh_thr w') = length (yh_thr w) /\ (forall j, j <> i -> nth_error (yh_thr w') j = nth_error (yh_thr w) j) /\
     ((stage h < stage h')%nat \/ stage h' = stage h /\ yh_rng w' = yh_rng w /\ t_left h' = t_left h /\ onward_h (t_now h) (t_now h'))) \/
  (exists s k, t_now h = Some (s, Asking k) /\ w' = mkyh (yh_len w) (yh_msgs w) (yh_thr w) (lk_turn st (s, a, t) (yh_rng w))).
Proof.
  intros E w'.
  assert (ID : mkyh (yh_len w) (yh_msgs w) (set_yh (yh_thr w) i (h, V, U)) (yh_rng w) = w) by (rewrite (set_yh_id _ _ _ E); destruct w; reflexivity).
  assert (MINE : forall h' V' U' ms r, (stage h < stage h')%nat \/ stage h' = stage h /\ r = yh_rng w /\ t_left h' = t_left h /\ onward_h (t_now h) (t_now h') -> w' = mkyh (yh_len w) ms (set_yh (yh_thr w) i (h', V', U')) r ->
    exists h' V' U', nth_error (yh_thr w') i = Some (h', V', U') /\ length (yh_thr w') = length (yh_thr w) /\ (forall j, j <> i -> nth_error (yh_thr w') j = nth_error (yh_thr w) j) /\
     ((stage h < stage h')%nat \/ stage h' = stage h /\ yh_rng w' = yh_rng w /\ t_left h' = t_left h /\ onward_h (t_now h) (t_now h'))).
  { intros h' V' U' ms r H ->. cbn [yh_thr yh_rng]. exists h', V', U'. split; [eapply nth_yh_eq; exact E|]. split; [apply length_yh|]. split; [intros j Hj; apply nth_yh_ne; congruence|exact H]. }
  destruct h as [me nw left codes]. cbn [t_now t_left t_me t_codes] in *.
  assert (EQ : w' = yh_turn C st rqs (i, a, t) w) by reflexivity. unfold yh_turn in EQ. rewrite E in EQ. cbn [t_now t_left t_me t_codes] in EQ.
  destruct nw as [[s ph]|].
  - destruct ph as [p k|k|p].
    + assert (G : w' = (let '(ms, p', V') := access (yh_len w) (yh_msgs w) p V t in mkyh (yh_len w) ms (set_yh (yh_thr w) i (now (mkt me (Some (s, Before p k)) left codes) (Some (s, Before p' k)), V', U)) (yh_rng w)) -> w' = w \/
        exists h' V' U', nth_error (yh_thr w') i = Some (h', V', U') /\ length (yh_thr w') = length (yh_thr w) /\ (forall j, j <> i -> nth_error (yh_thr w') j = nth_error (yh_thr w) j) /\
          ((stage (mkt me (Some (s, Before p k)) left codes) < stage h')%nat \/ stage h' = stage (mkt me (Some (s, Before p k)) left codes) /\ yh_rng w' = yh_rng w /\ t_left h' = left /\ onward_h (Some (s, Before p k)) (t_now h'))).
      { intros Q. destruct (access_cases (yh_len w) (yh_msgs w) p V t) as [X|(ms' & p' & V' & X & Hc)]; rewrite X in Q.
        - left. rewrite Q. exact ID.
        - right. refine (MINE _ _ _ _ _ _ Q). right. split; [reflexivity|]. split; [reflexivity|]. split; [reflexivity|]. exists s. left. exists p, p', k. split; [reflexivity|]. split; [reflexivity|exact Hc]. }
      destruct p as [x|e|x kk|x v kk|kk|v kk]; try (destruct (G EQ) as [Q|Q]; [left; exact Q|right; left; exact Q]).
      right. left. refine (MINE _ _ _ _ _ _ EQ). left. unfold stage. cbn. lia.
    + destruct (nth_error (lk_calls (yh_rng w)) s) as [[c W]|]; [|left; exact EQ]. destruct (nth_error rqs s) as [[b n]|]; [|left; exact EQ].
      destruct (rc_pc c); try (right; right; exists s, k; split; [reflexivity|exact EQ]); right; left; refine (MINE _ _ _ _ _ _ EQ); left; unfold stage; cbn; lia.
    + assert (G : w' = (let '(ms, p', V') := access (yh_len w) (yh_msgs w) p V t in mkyh (yh_len w) ms (set_yh (yh_thr w) i (now (mkt me (Some (s, After p)) left codes) (Some (s, After p')), V', U)) (yh_rng w)) -> w' = w \/
        exists h' V' U', nth_error (yh_thr w') i = Some (h', V', U') /\ length (yh_thr w') = length (yh_thr w) /\ (forall j, j <> i -> nth_error (yh_thr w') j = nth_error (yh_thr w) j) /\
          ((stage (mkt me (Some (s, After p)) left codes) < stage h')%nat \/ stage h' = stage (mkt me (Some (s, After p)) left codes) /\ yh_rng w' = yh_rng w /\ t_left h' = left /\ onward_h (Some (s, After p)) (t_now h'))).
      { intros Q. destruct (access_cases (yh_len w) (yh_msgs w) p V t) as [X|(ms' & p' & V' & X & Hc)]; rewrite X in Q.
        - left. rewrite Q. exact ID.
        - right. refine (MINE _ _ _ _ _ _ Q). right. split; [reflexivity|]. split; [reflexivity|]. split; [reflexivity|]. exists s. right. exists p, p'. split; [reflexivity|]. split; [reflexivity|exact Hc]. }
      destruct p as [v|e|x kk|x v kk|kk|v kk]; try (destruct (G EQ) as [Q|Q]; [left; exact Q|right; left; exact Q]).
      right. left. refine (MINE _ _ _ _ _ _ EQ). left. unfold stage. cbn. rewrite app_length. cbn. lia.
  - destruct left as [|[s ac] left]; [left; exact EQ|]. right. left. refine (MINE _ _ _ _ _ _ EQ). left. unfold stage. cbn. destruct ac; cbn; lia.
Qed.

Section Run.
Variables (C : config) (mem : list Z) (ms : list message) (V : view) (ls : list (Z * list (nat * action))) (stk : list Z) (rqs : list (Z * Z))
  (lms : list message) (T lock : Z) (fds : list Z) (pos : Z) (st : Z -> Z) (f : nat -> nat * answer * Z).
Hypothesis HS : setting C mem ls stk rqs lock fds st.
Hypothesis HN : newest_is lms T lock.
Notation S := Datatypes.S.
Definition htime (n : nat) : yhworld := yh_exec C st rqs (upto f n) (hbegin mem ms V ls stk rqs lms T fds pos).
Notation w := htime.
Let Hpre : forall i me l, nth_error ls i = Some (me, l) -> exists rest, nth_error ls i = Some (me, l ++ rest).
Proof. intros i me l H. exists []. rewrite app_nil_r. exact H. Qed.

Lemma htime_next n : w (S n) = yh_turn C st rqs (f n) (w n).
Proof. unfold htime, yh_exec. rewrite upto_next, fold_left_app. reflexivity. Qed.
Lemma hsim_at n : exists s1, hsim C st (zlen mem) ms V ls stk pos rqs T s1 (w n).
Proof. exact (hsim_run C mem ms V ls stk rqs lms T lock fds pos st HS HN ls Hpre (upto f n)). Qed.
Lemma len_thr n : length (yh_thr (w n)) = length ls.
Proof. destruct (hsim_at n) as (s1 & (_ & L & _)). exact L. Qed.
Lemma len_rng n : length (lk_calls (yh_rng (w n))) = length rqs.
Proof. destruct (hsim_at n) as (s1 & ((T1 & nv & (_ & _ & (L & _) & _) & _) & _)). cbn [proj rw_calls] in L. rewrite map_length in L. exact L. Qed.
Lemma hentry n i : (i < length ls)%nat -> exists h V U, nth_error (yh_thr (w n)) i = Some (h, V, U).
Proof. intros Hi. destruct (nth_error (yh_thr (w n)) i) as [[[h W] U]|] eqn:E; [eauto|]. apply nth_error_None in E. rewrite len_thr in E. lia. Qed.

(** One moment to the next. *)
Lemma hnext n : let i := fst (fst (f n)) in
  w (S n) = w n \/
  (exists h V U h' V' U', nth_error (yh_thr (w n)) i = Some (h, V, U) /\ nth_error (yh_thr (w (S n))) i = Some (h', V', U') /\ (forall j, j <> i -> nth_error (yh_thr (w (S n))) j = nth_error (yh_thr (w n)) j) /\
     ((stage h < stage h')%nat \/ stage h' = stage h /\ yh_rng (w (S n)) = yh_rng (w n) /\ t_left h' = t_left h /\ onward_h (t_now h) (t_now h'))) \/
  (exists h V U s k, nth_error (yh_thr (w n)) i = Some (h, V, U) /\ t_now h = Some (s, Asking k) /\ yh_thr (w (S n)) = yh_thr (w n) /\
     w (S n) = mkyh (yh_len (w n)) (yh_msgs (w n)) (yh_thr (w n)) (lk_turn st (s, snd (fst (f n)), snd (f n)) (yh_rng (w n)))).
Proof.
  intros i. rewrite htime_next. unfold i. destruct (f n) as [[j a] t]. cbn [fst snd]. destruct (nth_error (yh_thr (w n)) j) as [[[h W] U]|] eqn:E.
  2:{ left. unfold yh_turn. rewrite E. reflexivity. }
  destruct (turn_does C st rqs j a t (w n) h W U E) as [Q|[(h' & V' & U' & Q1 & _ & Q2 & Q3)|(s & k & Q1 & Q2)]]; [left; exact Q|right; left|right; right].
  - exists h, W, U, h', V', U'. auto.
  - exists h, W, U, s, k. split; [reflexivity|]. split; [exact Q1|]. split; [rewrite Q2; reflexivity|exact Q2].
Qed.
Lemma stage_next n i x y : nth_error (yh_thr (w n)) i = Some x -> nth_error (yh_thr (w (S n))) i = Some y -> (stage (fst (fst x)) <= stage (fst (fst y)))%nat.
Proof.
  intros Hx Hy. destruct (hnext n) as [Q|[(h & W & U & h' & V' & U' & Q1 & Q2 & Q3 & Q4)|(h & W & U & s & k & _ & _ & Q & _)]].
  - rewrite Q in Hy. assert (x = y) as -> by congruence. lia.
  - destruct (Nat.eq_dec i (fst (fst (f n)))) as [->|Hn].
    + pose proof (eq_trans (eq_sym Hx) Q1) as Ex. pose proof (eq_trans (eq_sym Hy) Q2) as Ey. injection Ex as ->. injection Ey as ->. cbn [fst]. destruct Q4 as [|(-> & _)]; lia.
    + rewrite Q3 in Hy by exact Hn. assert (x = y) as -> by congruence. lia.
  - rewrite Q in Hy. assert (x = y) as -> by congruence. lia.
Qed.
Notation tot n := (total (yh_thr (w n))).
Lemma tot_next n : (tot n <= tot (S n))%nat.
Proof. apply total_le; [rewrite !len_thr; reflexivity|apply stage_next]. Qed.
Lemma tot_mono n m : (n <= m)%nat -> (tot n <= tot m)%nat.
Proof. intros H. induction H as [|m H IH]; [lia|]. pose proof (tot_next m). lia. Qed.
Lemma tot_up n h V1 U h' V' U' : nth_error (yh_thr (w n)) (fst (fst (f n))) = Some (h, V1, U) -> nth_error (yh_thr (w (S n))) (fst (fst (f n))) = Some (h', V', U') -> (stage h < stage h')%nat -> (tot n < tot (S n))%nat.
Proof. intros H1 H2 H3. eapply total_lt; [rewrite !len_thr; reflexivity|apply stage_next|]. do 2 eexists. split; [exact H1|]. split; [exact H2|exact H3]. Qed.
Lemma tot_bound n : (tot n <= list_sum (map (fun ml => 4 * length (snd ml) + 3) ls))%nat.
Proof.
  destruct (hsim_at n) as (s1 & (_ & L & _ & Hok & _)). revert L Hok. generalize (yh_rng (w n)) as r. generalize (yh_thr (w n)) as l. clear. intros l r. revert l.
  assert (ONE : forall ml h, yok r ml h -> (stage h <= 4 * length (snd ml) + 3)%nat).
  { intros ml h (_ & done & Ld & _ & Hnow). unfold stage. destruct (t_now h) as [[s ph]|].
    - destruct Hnow as (a & El & _). rewrite El, app_length. cbn [length]. pose proof (rank_le (Some (s, ph))). lia.
    - rewrite Hnow, app_length. cbn [rank]. lia. }
  induction ls as [|ml k IH]; intros [|[[h W] U] l] L Hok; cbn in L; try discriminate; [cbn; lia|]. unfold total in *. cbn [map list_sum fold_right].
  specialize (IH l ltac:(lia) (fun i => Hok (S i))). unfold list_sum in IH. pose proof (ONE ml h (Hok 0%nat ml h W U eq_refl eq_refl)). cbn [fst] in *. lia.
Qed.
Lemma done_next n i : ydone (w n) i -> ydone (w (S n)) i.
Proof.
  intros (h & W & U & E & E1 & E2). unfold ydone. destruct (Nat.eq_dec i (fst (fst (f n)))) as [Ei|Hn].
  - assert (Q : w (S n) = w n) by (rewrite htime_next; destruct (f n) as [[j a] t]; cbn in Ei; subst j; unfold yh_turn; rewrite E, E1, E2; reflexivity). rewrite Q. exists h, W, U. auto.
  - exists h, W, U. split; [|auto]. rewrite <- E. destruct (hnext n) as [Q|[(? & ? & ? & ? & ? & ? & _ & _ & Q & _)|(? & ? & ? & ? & ? & _ & _ & Q & _)]]; [rewrite Q; reflexivity|apply Q, Hn|rewrite Q; reflexivity].
Qed.

(** *** A thread that waits for randombytes, until any thread enters a new stage *)
Hypothesis HF : forall i n, (i < length ls)%nat -> exists m, (n <= m)%nat /\ (ydone (w m) i \/ fst (fst (f m)) = i /\ w (S m) <> w m).
Hypothesis HG : system_works f.
Hypothesis HSeen : hseen_in_time w f.
Section From.
Variable n1 : nat.
Notation u n := (w (n1 + n)).
Definition rose (n : nat) : Prop := (tot n1 < tot (n1 + n))%nat.
Lemma rose_dec n : rose n \/ ~ rose n. Proof. unfold rose. lia. Qed.
Lemma rose_mono n : rose n -> rose (S n).
Proof. unfold rose. replace (n1 + S n)%nat with (S (n1 + n)) by lia. pose proof (tot_next (n1 + n)). lia. Qed.
Lemma not_rose n : ~ rose (S n) -> ~ rose n.
Proof. intros H X. apply H, rose_mono, X. Qed.
Definition slot_at (n : nat) : nat :=
  match nth_error (yh_thr (u n)) (fst (fst (f (n1 + n)))) with Some (h, _, _) => match t_now h with Some (s, Asking _) => s | _ => length rqs end | None => length rqs end.
Definition xs (n : nat) : nat * answer * Z := (slot_at n, snd (fst (f (n1 + n))), snd (f (n1 + n))).
(** While no thread enters a new stage ... *)
Lemma low_next n : ~ rose (S n) ->
  u (S n) = u n \/
  (yh_rng (u (S n)) = yh_rng (u n) /\ exists h V U h' V' U', let i := fst (fst (f (n1 + n))) in nth_error (yh_thr (u n)) i = Some (h, V, U) /\ nth_error (yh_thr (u (S n))) i = Some (h', V', U') /\
     (forall j, j <> i -> nth_error (yh_thr (u (S n))) j = nth_error (yh_thr (u n)) j) /\ onward_h (t_now h) (t_now h')) \/
  (yh_thr (u (S n)) = yh_thr (u n) /\ yh_rng (u (S n)) = lk_turn st (xs n) (yh_rng (u n)) /\ u (S n) = mkyh (yh_len (u n)) (yh_msgs (u n)) (yh_thr (u n)) (lk_turn st (xs n) (yh_rng (u n))) /\
     exists h V U k, nth_error (yh_thr (u n)) (fst (fst (f (n1 + n)))) = Some (h, V, U) /\ t_now h = Some (slot_at n, Asking k)).
Proof.
  intros NR. pose proof (not_rose n NR) as NR0. unfold rose in *. replace (n1 + S n)%nat with (S (n1 + n)) in * by lia.
  destruct (hnext (n1 + n)) as [Q|[(h & W & U & h' & V' & U' & Q1 & Q2 & Q3 & Q4)|(h & W & U & s & k & Q1 & Q2 & Q3 & Q4)]]; [left; exact Q|right; left|right; right].
  - destruct Q4 as [Q4|(Q4 & Q5 & Q6 & Q7)]; [pose proof (tot_up _ _ _ _ _ _ _ Q1 Q2 Q4); pose proof (tot_mono n1 (n1 + n) ltac:(lia)); lia|]. split; [exact Q5|]. exists h, W, U, h', V', U'. auto.
  - assert (SL : slot_at n = s) by (unfold slot_at; rewrite Q1, Q2; reflexivity). split; [exact Q3|]. unfold xs. rewrite SL. split; [rewrite Q4; reflexivity|]. split; [exact Q4|]. exists h, W, U, k. auto.
Qed.
(** ... the threads that wait for randombytes are the same. *)
Lemma asks_same n : ~ rose n -> forall i x, (nth_error (yh_thr (u n)) i = Some x /\ rank (t_now (fst (fst x))) = 2%nat) <-> (nth_error (yh_thr (w n1)) i = Some x /\ rank (t_now (fst (fst x))) = 2%nat).
Proof.
  induction n as [|n IH]; intros NR i x; [rewrite Nat.add_0_r; reflexivity|]. rewrite <- (IH (not_rose n NR) i x). clear IH.
  destruct (low_next n NR) as [Q|[(_ & h & W & U & h' & V' & U' & Q1 & Q2 & Q3 & Q4)|(Q & _)]]; [rewrite Q; reflexivity| |rewrite Q; reflexivity].
  assert (N1 : rank (t_now h) <> 2%nat /\ rank (t_now h') <> 2%nat) by (destruct Q4 as (s & [(p & p' & k & E1 & E2 & _)|(p & p' & E1 & E2 & _)]); rewrite E1, E2; cbn; lia). destruct N1 as (N1 & N2).
  destruct (Nat.eq_dec i (fst (fst (f (n1 + n))))) as [->|Hn].
  - split; intros (E1 & E2); [pose proof (eq_trans (eq_sym E1) Q2) as E|pose proof (eq_trans (eq_sym E1) Q1) as E]; injection E as ->; cbn [fst] in E2; congruence.
  - rewrite Q3 by exact Hn. reflexivity.
Qed.
Definition awaited (s : nat) : bool :=
  existsb (fun x => match t_now (fst (fst x)) with Some (s', Asking _) => Nat.eqb s s' | _ => false end) (yh_thr (w n1)).
Definition got (s : nat) : bool := match nth_error (lk_calls (yh_rng (w n1))) s with Some (c, _) => match rc_pc c with PRet _ => true | _ => false end | None => false end.
Lemma awaited_spec s : awaited s = true <-> exists i h V U k, nth_error (yh_thr (w n1)) i = Some (h, V, U) /\ t_now h = Some (s, Asking k).
Proof.
  unfold awaited. rewrite existsb_exists. split.
  - intros ([[h W] U] & Hin & H). apply In_nth_error in Hin as (i & Hi). cbn [fst] in H. destruct (t_now h) as [[s' [p k|k|p]]|] eqn:En; try discriminate. apply Nat.eqb_eq in H. subst s'. exists i, h, W, U, k. auto.
  - intros (i & h & W & U & k & Hi & En). exists (h, W, U). split; [eapply nth_error_In; exact Hi|]. cbn [fst]. rewrite En. apply Nat.eqb_refl.
Qed.
Lemma call_same n s : ~ rose n -> awaited s = false -> nth_error (lk_calls (yh_rng (u n))) s = nth_error (lk_calls (yh_rng (w n1))) s.
Proof.
  induction n as [|n IH]; intros NR Ha; [rewrite Nat.add_0_r; reflexivity|]. rewrite <- (IH (not_rose n NR) Ha). clear IH.
  destruct (low_next n NR) as [Q|[(Q & _)|(_ & Q & _ & h & W & U & k & Q1 & Q2)]]; [rewrite Q; reflexivity|rewrite Q; reflexivity|]. rewrite Q. unfold xs. apply lk_turn_calls. left. intros E.
  assert (X : awaited s = true); [|congruence]. apply awaited_spec. destruct (proj1 (asks_same n (not_rose n NR) (fst (fst (f (n1 + n)))) (h, W, U))) as (X & _); [split; [exact Q1|cbn [fst]; rewrite Q2; reflexivity]|].
  exists (fst (fst (f (n1 + n)))), h, W, U, k. split; [exact X|]. rewrite Q2. congruence.
Qed.
Lemma good_pc n s c W : nth_error (lk_calls (yh_rng (w n))) s = Some (c, W) -> pc_ok c.
Proof.
  intros E. destruct (hsim_at n) as (s1 & ((T1 & nv & (_ & _ & Q & _) & _) & _)). pose proof Q as (L & _ & _ & HC & _). assert (E' : nth_error (rw_calls (proj (yh_rng (w n)) nv)) s = Some c) by (apply nth_fst; eauto).
  destruct (calls_nth rqs (proj (yh_rng (w n)) nv) s c L E') as (b & k & Hr). destruct (HC s b k c Hr E') as (_ & _ & _ & _ & H). exact H.
Qed.
Lemma ret_low n s : ~ rose n -> lk_returned (yh_rng (w n1)) s 0 -> lk_returned (yh_rng (u n)) s 0.
Proof.
  induction n as [|n IH]; intros NR H; [rewrite Nat.add_0_r; exact H|]. specialize (IH (not_rose n NR) H).
  destruct (low_next n NR) as [Q|[(Q & _)|(_ & Q & _)]]; rewrite Q; try exact IH. unfold xs. apply returned_lk. exact IH.
Qed.

Lemma awaited_returns s : awaited s = true -> (s < length rqs)%nat -> exists N, forall n, (N <= n)%nat -> rose n \/ lk_returned (yh_rng (u n)) s 0.
Proof.
  intros Ha Hs. destruct HG as (n0 & Hg). destruct (fair_one st stk pos rqs T (fun n => yh_rng (u n)) xs (fun s => got s || awaited s) rose rose_dec rose_mono) with (n0 := n0) (i := s) as (N & H); [..|exists N; exact H].
  - intros n. destruct (hsim_at (n1 + n)) as (s1 & ((T1 & nv & H & _) & _)). eauto.
  - intros n NR. destruct (low_next n NR) as [Q|[(Q & _)|(_ & Q & _)]]; [left; rewrite Q; reflexivity|left; exact Q|right; exact Q].
  - intros n i c W NR Hact E. apply orb_false_iff in Hact as (Hg1 & Hw). rewrite (call_same n i NR Hw) in E.
    destruct (hsim_at n1) as (s1 & (_ & _ & _ & _ & Hb & _)). assert (Hi : (i < length rqs)%nat) by (rewrite <- (len_rng n1); apply nth_error_Some; congruence).
    destruct (nth_error rqs i) as [rq|] eqn:Er; [|apply nth_error_None in Er; lia]. destruct (Hb i c W rq E Er) as [->|[X|X]].
    + destruct rq. reflexivity.
    + unfold got in Hg1. rewrite E, X in Hg1. discriminate.
    + destruct X as (j & h & W' & U & k & X1 & X2). assert (X : awaited i = true) by (apply awaited_spec; exists j, h, W', U, k; auto). congruence.
  - intros i n Hact Hi. destruct (rose_dec n) as [R|NR]; [exists n; auto|]. apply orb_true_iff in Hact as [Hact|Hact].
    + exists n. split; [lia|]. right. left. apply ret_low; [exact NR|]. unfold got in Hact. destruct (nth_error (lk_calls (yh_rng (w n1))) i) as [[c W]|] eqn:E; [|discriminate].
      pose proof (good_pc n1 i c W E) as P. unfold pc_ok in P. destruct (rc_pc c) eqn:Ep; try discriminate. destruct P as (-> & _). exists c, W. auto.
    + apply awaited_spec in Hact as (j & h & W & U & k & E1 & E2). assert (Hj : (j < length ls)%nat) by (rewrite <- (len_thr n1); apply nth_error_Some; congruence).
      destruct (HF j (n1 + n) Hj) as (m' & Hm' & X). replace m' with (n1 + (m' - n1))%nat in X by lia. set (m := (m' - n1)%nat) in *.
      destruct (rose_dec m) as [R|NM]; [exists m; split; [lia|left; exact R]|]. destruct (proj2 (asks_same m NM j (h, W, U))) as (Em & _); [split; [exact E1|cbn [fst]; rewrite E2; reflexivity]|].
      destruct X as [(h' & V' & U' & D1 & D2 & _)|(Ef & Hne)]; [rewrite Em in D1; injection D1 as <- _ _; congruence|].
      destruct (rose_dec (S m)) as [R|NS]; [exists (S m); split; [lia|left; exact R]|]. exists m. split; [lia|]. right. right. replace (S (n1 + m)) with (n1 + S m)%nat in Hne by lia.
      assert (SL : slot_at m = i) by (unfold slot_at; rewrite Ef, Em, E2; reflexivity).
      destruct (low_next m NS) as [Q|[(_ & h2 & W2 & U2 & h' & V' & U' & Q1 & _ & _ & Q4)|(_ & Q & Q' & _)]]; [congruence| |].
      * rewrite Ef, Em in Q1. injection Q1 as <- _ _. rewrite E2 in Q4. destruct Q4 as (s' & [(p & p' & k' & X & _)|(p & p' & X & _)]); discriminate.
      * split; [exact Q|]. split; [exact SL|]. intros X. apply Hne. rewrite Q', <- Q, X. destruct (u m); reflexivity.
  - intros m Hm. unfold xs. cbn [fst snd]. apply Hg. lia.
  - intros n v Hv. destruct (HSeen (n1 + n)%nat v Hv) as (N & HN'). exists N. intros m c W Hm NS E Eu Hne. unfold xs in E |- *. cbn [fst snd] in E |- *.
    assert (B : (slot_at m < length rqs)%nat) by (rewrite <- (len_rng (n1 + m)); apply nth_error_Some; congruence). unfold slot_at in E, B.
    destruct (nth_error (yh_thr (u m)) (fst (fst (f (n1 + m))))) as [[[h W1] U]|] eqn:Eh; [|lia]. destruct (t_now h) as [[s' [p k|k|p]]|] eqn:En; try lia.
    refine (HN' (n1 + m)%nat h W1 U s' k c W ltac:(lia) Eh En E Eu _). replace (S (n1 + m)) with (n1 + S m)%nat by lia. intros X. apply Hne. rewrite X. reflexivity.
  - rewrite Ha. apply orb_true_r.
  - exact Hs.
Qed.
End From.

(** *** A thread that has not done all its actions: some thread enters a new stage *)
Lemma entry_waits n i h V1 U : nth_error (yh_thr (w n)) i = Some (h, V1, U) -> forall d, (tot n < tot (n + d))%nat \/ (exists e h' V' U', (e < d)%nat /\ nth_error (yh_thr (w (n + e))) i = Some (h, V1, U) /\ fst (fst (f (n + e))) = i /\ w (S (n + e)) <> w (n + e) /\ nth_error (yh_thr (w (S (n + e)))) i = Some (h', V', U') /\ onward_h (t_now h) (t_now h')) \/
  nth_error (yh_thr (w (n + d))) i = Some (h, V1, U).
Proof.
  intros E. induction d as [|d IH]; [right; right; rewrite Nat.add_0_r; exact E|]. rewrite Nat.add_succ_r. pose proof (tot_next (n + d)) as TN. destruct IH as [H|[(e & h' & V' & U' & H1 & H2)|H]]; [left; lia|right; left; exists e, h', V', U'; split; [lia|exact H2]|].
  destruct (hnext (n + d)) as [Q|[(h1 & W & U1 & h' & V' & U' & Q1 & Q2 & Q3 & Q4)|(h1 & W & U1 & s & k & _ & _ & Q & _)]].
  - right; right. rewrite Q. exact H.
  - destruct (Nat.eq_dec i (fst (fst (f (n + d))))) as [Ei|Hne]; [|right; right; rewrite Q3 by exact Hne; exact H]. rewrite <- Ei in Q1, Q2. pose proof (eq_trans (eq_sym H) Q1) as X. injection X as <- <- <-.
    destruct Q4 as [Q4|(_ & _ & _ & Q4)].
    + left. rewrite Ei in Q1, Q2. pose proof (tot_up _ _ _ _ _ _ _ Q1 Q2 Q4). pose proof (tot_mono n (n + d) ltac:(lia)). lia.
    + right; left. exists d, h', V', U'. split; [lia|]. split; [exact H|]. split; [congruence|]. split; [|split; [exact Q2|exact Q4]].
      intros X. rewrite X in Q2. pose proof (eq_trans (eq_sym H) Q2) as Y. injection Y as Y _ _. subst h'. destruct Q4 as (s & [(p & p' & k & E1 & E2 & Hc)|(p & p' & E1 & E2 & Hc)]); rewrite E1 in E2; injection E2 as E2; subst p'.
      * clear - Hc. induction (child_acc p) as [p _ IH]. exact (IH p Hc Hc).
      * clear - Hc. induction (child_acc p) as [p _ IH]. exact (IH p Hc Hc).
  - right; right. rewrite Q. exact H.
Qed.
Lemma rises n i : (i < length ls)%nat -> ~ ydone (w n) i -> exists m, (n <= m)%nat /\ (tot n < tot m)%nat.
Proof.
  intros Hi. destruct (hentry n i Hi) as (h & W & U & E). revert n h W U E.
  assert (STEP : forall n h W U, nth_error (yh_thr (w n)) i = Some (h, W, U) -> ~ ydone (w n) i ->
    (exists m, (n <= m)%nat /\ (tot n < tot m)%nat) \/ (exists m h' V' U', (n < m)%nat /\ nth_error (yh_thr (w m)) i = Some (h', V', U') /\ onward_h (t_now h) (t_now h')) \/
    (exists m, (n <= m)%nat /\ nth_error (yh_thr (w m)) i = Some (h, W, U) /\ fst (fst (f m)) = i /\ w (S m) <> w m)).
  { intros n h W U E ND. destruct (HF i n Hi) as (m & Hm & X). replace m with (n + (m - n))%nat in X by lia. set (d := (m - n)%nat) in *.
    destruct (entry_waits n i h W U E d) as [H|[(e & h' & V' & U' & H1 & H2 & H3 & H4 & H5 & H6)|H]]; [left; exists (n + d)%nat; split; [lia|exact H]|right; left; exists (S (n + e)), h', V', U'; split; [lia|auto]|].
    destruct X as [(h' & V' & U' & D1 & D2 & D3)|(X1 & X2)]; [|right; right; exists (n + d)%nat; split; [lia|auto]].
    rewrite H in D1. injection D1 as <- _ _. exfalso. apply ND. exists h, W, U. auto. }
  assert (KEY : forall ph n h W U s, t_now h = Some (s, ph) -> (forall k, ph <> Asking k) -> nth_error (yh_thr (w n)) i = Some (h, W, U) -> exists m, (n <= m)%nat /\ (tot n < tot m)%nat).
  { intros ph. induction (onward_acc ph) as [ph _ IH]. intros n h W U s En Hna E.
    assert (ND : ~ ydone (w n) i) by (intros (h' & V' & U' & D1 & D2 & _); rewrite E in D1; injection D1 as <- _ _; congruence).
    assert (ON : forall m h' V' U', (n <= m)%nat -> nth_error (yh_thr (w m)) i = Some (h', V', U') -> onward_h (t_now h) (t_now h') -> exists m, (n <= m)%nat /\ (tot n < tot m)%nat).
    { intros m h' V' U' Hm E' (s' & [(p & p' & k & E1 & E2 & Hc)|(p & p' & E1 & E2 & Hc)]); rewrite En in E1; injection E1 as <- ->.
      - destruct (IH (Before p' k) ltac:(constructor; exact Hc) m h' V' U' s E2 ltac:(discriminate) E') as (m2 & Hm2 & H2). exists m2. split; [lia|]. pose proof (tot_mono n m Hm). lia.
      - destruct (IH (After p') ltac:(constructor; exact Hc) m h' V' U' s E2 ltac:(discriminate) E') as (m2 & Hm2 & H2). exists m2. split; [lia|]. pose proof (tot_mono n m Hm). lia. }
    destruct (STEP n h W U E ND) as [H|[(m & h' & V' & U' & Hm & E' & H)|(m & Hm & Em & Ef & Hne)]]; [exact H|apply (ON m h' V' U'); [lia|assumption..]|].
    destruct (hnext m) as [Q|[(h1 & W1 & U1 & h' & V' & U' & Q1 & Q2 & Q3 & Q4)|(h1 & W1 & U1 & s' & k & Q1 & Q2 & _)]]; [contradiction| |].
    - rewrite Ef in Q1, Q2. pose proof (eq_trans (eq_sym Em) Q1) as X. injection X as <- <- <-. destruct Q4 as [Q4|(_ & _ & _ & Q4)].
      + exists (S m). split; [lia|]. rewrite <- Ef in Q1, Q2. pose proof (tot_up _ _ _ _ _ _ _ Q1 Q2 Q4). pose proof (tot_mono n m Hm). lia.
      + apply (ON (S m) h' V' U'); [lia|assumption..].
    - rewrite Ef in Q1. pose proof (eq_trans (eq_sym Em) Q1) as X. injection X as <- <- <-. rewrite En in Q2. injection Q2 as _ ->. destruct (Hna k eq_refl). }
  assert (MOVE : forall m h W U, nth_error (yh_thr (w m)) i = Some (h, W, U) -> fst (fst (f m)) = i -> w (S m) <> w m -> (forall s ph, t_now h = Some (s, ph) -> exists k, ph = Asking k /\ lk_returned (yh_rng (w m)) s 0) -> (tot m < tot (S m))%nat).
  { intros m h W U Em Ef Hne Hn. destruct (hnext m) as [Q|[(h1 & W1 & U1 & h' & V' & U' & Q1 & Q2 & Q3 & Q4)|(h1 & W1 & U1 & s' & k & Q1 & Q2 & _ & Q3)]]; [contradiction| |].
    - pose proof Q1 as Q1'. rewrite Ef in Q1'. pose proof (eq_trans (eq_sym Em) Q1') as X. injection X as <- <- <-. destruct Q4 as [Q4|(_ & _ & _ & (s & Q4))]; [exact (tot_up _ _ _ _ _ _ _ Q1 Q2 Q4)|].
      destruct Q4 as [(p & p' & k & E1 & _)|(p & p' & E1 & _)]; destruct (Hn _ _ E1) as (k' & X & _); discriminate.
    - rewrite Ef in Q1. pose proof (eq_trans (eq_sym Em) Q1) as X. injection X as <- <- <-. destruct (Hn _ _ Q2) as (_ & _ & (c & Wc & Hc & Ep)). exfalso. apply Hne. rewrite Q3.
      destruct (turn_cases st (yh_rng (w m)) s' (snd (fst (f m))) (snd (f m))) as [->|(c1 & V1 & c' & V' & C1 & _ & _ & _ & M)]; [destruct (w m); reflexivity|].
      rewrite Hc in C1. injection C1 as <- <-. unfold moved in M. rewrite Ep in M. contradiction. }
  intros n h W U E ND. destruct (t_now h) as [[s ph]|] eqn:En.
  - destruct ph as [p k|k|p]; [apply (KEY (Before p k) n h W U s En ltac:(discriminate) E)| |apply (KEY (After p) n h W U s En ltac:(discriminate) E)].
    assert (Aw : awaited n s = true) by (apply awaited_spec; exists i, h, W, U, k; auto).
    assert (Hs : (s < length rqs)%nat).
    { destruct (hsim_at n) as (s1 & (_ & _ & _ & Hok & _)). destruct (nth_error ls i) as [ml|] eqn:El; [|apply nth_error_None in El; lia]. destruct (Hok i ml h W U El E) as (_ & done & _ & _ & Hnow). rewrite En in Hnow. destruct Hnow as (a & Hl & _).
      destruct ml as [me l]. cbn [snd] in Hl. destruct (set_slot C mem ls stk rqs lock fds st HS ls Hpre i (me, l) s a El) as (b & Hb); [cbn [snd]; rewrite Hl; apply in_or_app; right; left; reflexivity|]. apply nth_error_Some. congruence. }
    destruct (awaited_returns n s Aw Hs) as (N & HN').
    assert (R1 : forall m, (n + N <= m)%nat -> (tot n < tot m)%nat \/ lk_returned (yh_rng (w m)) s 0 /\ nth_error (yh_thr (w m)) i = Some (h, W, U)).
    { intros m Hm. replace m with (n + (m - n))%nat by lia. destruct (HN' (m - n)%nat ltac:(lia)) as [X|X]; [left; exact X|]. destruct (rose_dec n (m - n)) as [Y|Y]; [left; exact Y|right]. split; [exact X|].
      apply (asks_same n (m - n) Y). split; [exact E|]. cbn [fst]. rewrite En. reflexivity. }
    destruct (HF i (n + N) Hi) as (m & Hm & X). destruct (R1 m Hm) as [Y|(Y1 & Y2)]; [exists m; split; [lia|exact Y]|].
    destruct X as [(h' & V' & U' & D1 & D2 & _)|(X1 & X2)]; [rewrite Y2 in D1; injection D1 as <- _ _; congruence|].
    exists (S m). split; [lia|]. pose proof (tot_mono n m ltac:(lia)). enough (tot m < tot (S m))%nat by lia. apply (MOVE m h W U Y2 X1 X2). intros s' ph' En'. rewrite En in En'. injection En' as <- <-. eauto.
  - destruct (STEP n h W U E ND) as [H|[(m & h' & V' & U' & Hm & E' & (s & H))|(m & Hm & Em & Ef & Hne)]]; [exact H|rewrite En in H; destruct H as [(p & p' & k & X & _)|(p & p' & X & _)]; discriminate|].
    exists (S m). split; [lia|]. pose proof (tot_mono n m ltac:(lia)). enough (tot m < tot (S m))%nat by lia. apply (MOVE m h W U Em Ef Hne). congruence.
Qed.
Theorem histories_end : exists N, forall n, (N <= n)%nat -> forall i, (i < length ls)%nat -> ydone (w n) i.
Proof.
  assert (K : forall B n, (list_sum (map (fun ml => 4 * length (snd ml) + 3) ls) <= tot n + B)%nat -> exists N, forall i, (i < length ls)%nat -> ydone (w N) i).
  { assert (D : forall k n, (k <= length ls)%nat -> (forall i, (i < k)%nat -> ydone (w n) i) \/ exists i, (i < length ls)%nat /\ ~ ydone (w n) i).
    { induction k as [|k IH]; intros n Hk; [left; lia|]. destruct (IH n ltac:(lia)) as [H|H]; [|right; exact H]. destruct (done_dec (w n) k ltac:(rewrite len_thr; lia)) as [X|X]; [left|right; exists k; split; [lia|exact X]].
      intros i Hi. destruct (Nat.eq_dec i k) as [->|]; [exact X|apply H; lia]. }
    induction B as [|B IH]; intros n Hn; destruct (D (length ls) n ltac:(lia)) as [H|(i & Hi & H)]; try (exists n; exact H); destruct (rises n i Hi H) as (m & Hm & Hlt); pose proof (tot_bound m); [lia|apply (IH m); lia]. }
  destruct (K _ 0%nat ltac:(apply Nat.le_add_l)) as (N & H). exists N. apply (stays (fun n => forall i, (i < length ls)%nat -> ydone (w n) i)); [exact H|]. intros n _ X i Hi. apply done_next, X, Hi.
Qed.
End Run.

(** Any number of threads as in [C54_histories], each of which does any list of actions, every schedule without end in which
    every thread that has not done all its actions does something again and again: whatever the system calls answered before they
    began to succeed, and however long the loads of [lock] took old values, there is a moment from which on every thread has done all its
    actions, with what [C54_histories] says: all calls have returned 0. *)
Theorem C54_histories_fair : forall C mem ms V ls stk rqs lms T lock fds pos st f,
  setting C mem ls stk rqs lock fds st -> shows ms V mem -> newest_is lms T lock ->
  let w n := yh_exec C st rqs (upto f n) (hbegin mem ms V ls stk rqs lms T fds pos) in
  (forall i n, (i < length ls)%nat -> exists m, (n <= m)%nat /\ (ydone (w m) i \/ fst (fst (f m)) = i /\ w (Datatypes.S m) <> w m)) ->
  system_works f -> hseen_in_time w f ->
  exists N, forall n i me l, (N <= n)%nat -> nth_error ls i = Some (me, l) ->
    exists v, ybetween (w n) i (length l) v.
Proof.
  intros C mem ms V ls stk rqs lms T lock fds pos st f HS HV HN w HF HG HSeen.
  destruct (histories_end C mem ms V ls stk rqs lms T lock fds pos st f HS HN HF HG HSeen) as (N & H). exists N. intros n i me l Hn Hi.
  destruct (H n Hn i ltac:(apply nth_error_Some; congruence)) as (h & v & U & E & E1 & E2). exists v, h, U. split; [exact E|]. split; [exact E1|].
  destruct (hsim_at C mem ms V ls stk rqs lms T lock fds pos st f HS HN n) as (s1 & (_ & _ & _ & Hok & _)). destruct (Hok i (me, l) h v U Hi E) as (_ & done & Ld & _ & Hnow). rewrite E1, E2, app_nil_r in Hnow. cbn [snd] in Hnow. congruence.
Qed.
Print Assumptions C54_histories_fair.

(** ** The hypotheses can be met *)
(** The time at which the next access of thread i can take place: that of the message that it knows for a load of the memory,
    one later for a store, and the newest for [lock]. *)
Definition next_time (w : yhworld) (i : nat) : Z :=
  let by_prog (p : prog Z) (V : view) := match p with Ld a _ => V a | St a _ _ => V a + 1 | _ => 0 end in
  match nth_error (yh_thr w) i with
  | Some (h, V, _) =>
      match t_now h with
      | Some (_, Before (Ld a _) _) => V a
      | Some (_, Before (St a _ _) _) => V a + 1
      | Some (_, After p) => by_prog p V
      | Some (s, Asking _) => match nth_error (lk_calls (yh_rng w)) s with Some (c, W) => newest (lk_msgs (yh_rng w)) W + match use_of (rc_pc c) with Stores _ => 1 | _ => 0 end | None => 0 end
      | _ => 0
      end
  | None => 0
  end.
Lemma rstep_moves st a c m l fds pos : match rc_pc c with PRet _ | PFault _ => False | _ => True end -> rc_pc (fst (fst (fst (fst (rstep st a c m l fds pos))))) <> rc_pc c.
Proof.
  unfold rstep. intros H. destruct (rc_pc c) as [| |fd| | | | |fd|v|e] eqn:Ep; try contradiction; cbn; try discriminate.
  - destruct (l =? -1); discriminate.
  - destruct (an_open a); discriminate.
  - destruct (l =? -1); discriminate.
  - destruct (0 <? rc_n c); discriminate.
  - destruct (is_open fds fd); [destruct (an_read a)|]; cbn; try discriminate.
    repeat match goal with |- context [match ?b with _ => _ end] => destruct b end; cbn; discriminate.
Qed.
Lemma child_irrefl {A} (p : prog A) : ~ child p p.
Proof. intros Hc. induction (child_acc p) as [p _ IH]. exact (IH p Hc Hc). Qed.
Lemma access_ld {A} len ms a (k : Z -> prog A) V v : 0 <= a < len -> lookup ms a (V a) = Some v -> access len ms (Ld a k) V (V a) = (ms, k v, upd V a (V a)).
Proof.
  intros Ha Hl. unfold access, rx_turn. cbn [nth_error rx_thr rx_msgs rx_len]. replace ((0 <=? a) && (a <? len)) with true by (symmetry; apply andb_true_iff; split; [apply Z.leb_le|apply Z.ltb_lt]; lia).
  unfold rx_load. rewrite Z.leb_refl, Hl. reflexivity.
Qed.
Lemma access_st {A} len ms a x (k : prog A) V : 0 <= a < len -> lookup ms a (V a + 1) = None -> access len ms (St a x k) V (V a + 1) = ((a, V a + 1, x) :: ms, k, upd V a (V a + 1)).
Proof.
  intros Ha Hl. unfold access, rx_turn. cbn [nth_error rx_thr rx_msgs rx_len]. replace ((0 <=? a) && (a <? len)) with true by (symmetry; apply andb_true_iff; split; [apply Z.leb_le|apply Z.ltb_lt]; lia).
  unfold rx_store. replace (V a <? V a + 1) with true by (symmetry; apply Z.ltb_lt; lia). rewrite Hl. reflexivity.
Qed.

Section Prompt.
Variables (C : config) (mem : list Z) (ms : list message) (V : view) (ls : list (Z * list (nat * action))) (stk : list Z) (rqs : list (Z * Z))
  (lms : list message) (T lock : Z) (fds : list Z) (pos : Z) (st : Z -> Z).
Hypothesis HS : setting C mem ls stk rqs lock fds st.
Hypothesis HV : shows ms V mem.
Hypothesis HN : newest_is lms T lock.
Notation S := Datatypes.S.
Let Hpre : forall i me l, nth_error ls i = Some (me, l) -> exists rest, nth_error ls i = Some (me, l ++ rest).
Proof. intros i me l H. exists []. rewrite app_nil_r. exact H. Qed.
Notation hsim := (hsim C st (zlen mem) ms V ls stk pos rqs T).

(** A thread that computes: its next access is in the memory, and at that address it knows of the newest message. *)
Lemma can_access s1 w i h U W : hsim s1 w -> nth_error (yh_thr w) i = Some (h, U, W) -> exists R p, rel C R h p /\
  match p with
  | Ld a _ => 0 <= a < zlen mem /\ exists v, lookup (yh_msgs w) a (U a) = Some v
  | St a _ _ => 0 <= a < zlen mem /\ lookup (yh_msgs w) a (U a + 1) = None
  | Gld _ | Gst _ _ => False
  | _ => True
  end.
Proof.
  intros HM Hi. destruct (ysrc C mem ms V stk rqs T pos st ls s1 w HM) as (nv & HI & src & Hsrc).
  destruct (picked C mem ms V ls stk rqs T lock fds pos st HS ls Hpre s1 w nv src HM HI Hsrc) as (HA & HZ & _). set (R := chosen rqs (proj (yh_rng w) nv)) in *. exists R.
  pose proof HM as (_ & Lx & _ & _ & _ & Hk). destruct (Hk R HA) as (thr & E & (L & Hrel)).
  assert (E0 : hfirst C (zlen mem) ms V ls R = RelaxedProofs.rstart _ (scripts C R ls) mem V ms) by reflexivity. rewrite E0 in E.
  pose proof (RelaxedProofs.rinv_exec _ (scripts C R ls) (Rf C ls) (Wf C ls) mem V ms (sub_foot C ls ls Hpre) (apart C mem ls stk rqs lock fds st HS ls Hpre) s1 _
    (RelaxedProofs.rinv_init _ (scripts C R ls) (Rf C ls) (Wf C ls) mem V ms (obey C mem ls stk rqs lock fds st HS ls Hpre R HZ) HV)) as (_ & _ & _ & Th). rewrite E in Th. cbn [rx_thr rx_msgs] in Th.
  assert (Hl : (i < length ls)%nat) by (rewrite <- Lx; apply nth_error_Some; congruence).
  destruct (nth_error thr i) as [[p U']|] eqn:Ep; [|apply nth_error_None in Ep; lia]. destruct (Hrel i h U W _ Hi Ep) as (X & Y). cbn [fst snd] in X, Y. subst U'. exists p. split; [exact Y|].
  destruct (nth_error (scripts C R ls) i) as [p0|] eqn:E1; [|apply nth_error_None in E1; unfold scripts in E1; rewrite map_length in E1; lia].
  destruct (Th i p0 p U E1 Ep) as (m & Lm & Om & _ & Am & _).
  destruct p as [r|e|a k|a x k|k|x k]; cbn [obeys] in Om; try exact I; try contradiction; destruct Om as (Hin & HR & _); apply in_mem_true in Hin.
  - split; [lia|]. eexists. apply (Am a ltac:(lia) HR).
  - split; [lia|]. apply (Am a ltac:(lia) (sub_foot C ls ls Hpre i a HR)). lia.
Qed.
(** A thread that has not done all its actions does something when it is its turn at this time. *)
Lemma next_time_moves s1 w i : hsim s1 w -> (i < length ls)%nat -> ~ ydone w i -> yh_turn C st rqs (i, good, next_time w i) w <> w.
Proof.
  intros HM Hi ND Q. pose proof HM as ((T1 & nv & HI & _) & Lx & El & Hok & _). destruct (nth_error (yh_thr w) i) as [[[h U] W]|] eqn:E; [|apply nth_error_None in E; lia].
  destruct (nth_error ls i) as [ml|] eqn:Eml; [|apply nth_error_None in Eml; lia]. pose proof (Hok i ml h U W Eml E) as (_ & done & _ & _ & Hnow).
  destruct (ysrc C mem ms V stk rqs T pos st ls s1 w HM) as (nv' & HI' & src & Hsrc).
  destruct (hview C mem ms V ls stk rqs T lock fds pos st HS HV ls Hpre s1 w nv' src HM HI' Hsrc) as (F & _). destruct (F i h U W E) as (_ & F1 & F2). clear F.
  destruct (can_access s1 w i h U W HM E) as (R & p & Hr & Hp).
  assert (DIFF : forall h' U' W' ms' r', t_now h' <> t_now h -> mkyh (yh_len w) ms' (set_yh (yh_thr w) i (h', U', W')) r' <> w).
  { intros h' U' W' ms' r' Hne X. apply (f_equal (fun w => nth_error (yh_thr w) i)) in X. cbn [yh_thr] in X. pose proof (eq_trans (eq_sym (nth_yh_eq _ _ (h', U', W') _ E)) X) as Y. pose proof (eq_trans Y E) as Y2. injection Y2 as Y2 _ _. congruence. }
  unfold yh_turn, next_time in Q. rewrite E in Q. unfold rel in Hr. destruct h as [me nw left codes]. cbn [t_now t_left t_me t_codes] in *. destruct nw as [[s ph]|].
  2:{ destruct left as [|[s ac] left]; [apply ND; exists (mkt me None [] codes), U, W; auto|]. revert Q. apply DIFF. discriminate. }
  destruct ph as [q k|k|q].
  - destruct q as [x|e|a kk|a x kk|kk|x kk].
    + revert Q. apply DIFF. discriminate.
    + exact (F2 s e k eq_refl).
    + cbn [pbind] in Hr. subst p. destruct Hp as (Ha & v & Hv). rewrite El, (access_ld _ _ _ _ _ v Ha Hv), <- El in Q. revert Q. apply DIFF. cbn. intros X. injection X as X. apply (child_irrefl (Ld a kk)). rewrite <- X at 1. constructor.
    + cbn [pbind] in Hr. subst p. destruct Hp as (Ha & Hv). rewrite El, (access_st _ _ _ _ _ _ Ha Hv), <- El in Q. revert Q. apply DIFF. cbn. intros X. injection X as X. apply (child_irrefl (St a x kk)). rewrite <- X at 1. constructor.
    + cbn [pbind] in Hr. subst p. contradiction.
    + cbn [pbind] in Hr. subst p. contradiction.
  - destruct Hnow as (a0 & Hl & _). destruct ml as [me0 l]. cbn [snd] in Hl.
    destruct (set_slot C mem ls stk rqs lock fds st HS ls Hpre i (me0, l) s a0 Eml) as (b & Hb); [cbn [snd]; rewrite Hl; apply in_or_app; right; left; reflexivity|].
    pose proof HI as (M1 & M2 & (LC & _ & _ & HC & _) & _). cbn [proj rw_calls] in LC. rewrite map_length in LC.
    destruct (nth_error (lk_calls (yh_rng w)) s) as [[c Wc]|] eqn:Ec; [|apply nth_error_None in Ec; assert (s < length rqs)%nat by (apply nth_error_Some; congruence); lia].
    assert (Ec' : nth_error (rw_calls (proj (yh_rng w) nv)) s = Some c) by (apply nth_fst; eauto). rewrite Hb in Q. destruct (HC s b _ c Hb Ec') as (_ & _ & _ & _ & Hpc). unfold pc_ok in Hpc.
    assert (G : match rc_pc c with PRet _ | PFault _ => False | _ => True end ->
      mkyh (yh_len w) (yh_msgs w) (yh_thr w) (lk_turn st (s, good, newest (lk_msgs (yh_rng w)) Wc + match use_of (rc_pc c) with Stores _ => 1 | _ => 0 end) (yh_rng w)) <> w).
    { intros Hnr X. apply (f_equal yh_rng) in X. cbn [yh_rng] in X. destruct (prompt_turn_inv st stk pos rqs T (set_req C mem ls stk rqs lock fds st HS) (set_dis C mem ls stk rqs lock fds st HS) T1 nv (yh_rng w) (s, good) HI) as (T2 & nv2 & _ & Y).
      unfold prompt_turn in Y. cbn [fst] in Y. rewrite Ec in Y. rewrite X in Y. apply (f_equal (fun r => nth_error (rw_calls r) s)) in Y. unfold rturn in Y. cbn [fst snd] in Y. rewrite Ec' in Y.
      pose proof (rstep_moves st good c (rw_mem (proj (yh_rng w) nv)) (rw_lock (proj (yh_rng w) nv)) (rw_open (proj (yh_rng w) nv)) (rw_pos (proj (yh_rng w) nv)) Hnr) as Mv.
      destruct (rstep st good c (rw_mem (proj (yh_rng w) nv)) (rw_lock (proj (yh_rng w) nv)) (rw_open (proj (yh_rng w) nv)) (rw_pos (proj (yh_rng w) nv))) as [[[[c' m'] l'] f'] p'].
      cbn [fst rw_calls] in Y, Mv. rewrite (nth_setc_eq _ _ _ _ Ec') in Y. change (rw_calls (proj (yh_rng w) nv2)) with (rw_calls (proj (yh_rng w) nv)) in Y. rewrite Ec' in Y. injection Y as <-. congruence. }
    destruct (rc_pc c) eqn:Ep; try (exact (G I Q)); try contradiction. revert Q. apply DIFF. discriminate.
  - destruct q as [x|e|a kk|a x kk|kk|x kk].
    + revert Q. apply DIFF. discriminate.
    + exact (F1 s e eq_refl).
    + cbn [pbind] in Hr. subst p. destruct Hp as (Ha & v & Hv). rewrite El, (access_ld _ _ _ _ _ v Ha Hv), <- El in Q. revert Q. apply DIFF. cbn. intros X. injection X as X. apply (child_irrefl (Ld a kk)). rewrite <- X at 1. constructor.
    + cbn [pbind] in Hr. subst p. destruct Hp as (Ha & Hv). rewrite El, (access_st _ _ _ _ _ _ Ha Hv), <- El in Q. revert Q. apply DIFF. cbn. intros X. injection X as X. apply (child_irrefl (St a x kk)). rewrite <- X at 1. constructor.
    + cbn [pbind] in Hr. subst p. contradiction.
    + cbn [pbind] in Hr. subst p. contradiction.
Qed.
Lemma message_stays x w u : lookup (lk_msgs (yh_rng w)) lock_at u <> None -> lookup (lk_msgs (yh_rng (yh_turn C st rqs x w))) lock_at u <> None.
Proof.
  intros H. destruct x as [[i a] t]. unfold yh_turn. destruct (nth_error (yh_thr w) i) as [[[h U] W]|]; [|exact H]. destruct (t_now h) as [[s [p k|k|p]]|].
  - destruct p; try (destruct (access _ _ _ _ _) as [[? ?] ?]); try exact H. cbn [yh_rng]. unfold aware. destruct (nth_error (lk_calls (yh_rng w)) s) as [[c Wc]|]; exact H.
  - destruct (nth_error (lk_calls (yh_rng w)) s) as [[c Wc]|]; [|exact H]. destruct (nth_error rqs s) as [[b n]|]; [|exact H]. destruct (rc_pc c); try exact H; cbn [yh_rng]; apply lk_turn_msgs, H.
  - destruct p; try (destruct (access _ _ _ _ _) as [[? ?] ?]); exact H.
  - destruct (t_left h) as [|[s ac] l]; exact H.
Qed.

(** After [sched] the threads take turns, and every access takes place. *)
Variable sched : list (nat * answer * Z).
Notation run s := (yh_exec C st rqs s (hbegin mem ms V ls stk rqs lms T fds pos)).
Definition turn_at (n : nat) (w : yhworld) : nat * answer * Z :=
  match nth_error sched n with Some x => x | None => ((n mod length ls)%nat, good, next_time w (n mod length ls)) end.
Fixpoint turns_to (n : nat) : list (nat * answer * Z) := match n with O => [] | Datatypes.S n => turns_to n ++ [turn_at n (run (turns_to n))] end.
Definition in_turn (n : nat) : nat * answer * Z := turn_at n (run (turns_to n)).
Lemma upto_in_turn n : upto in_turn n = turns_to n.
Proof. induction n as [|n IH]; [reflexivity|]. rewrite upto_next, IH. reflexivity. Qed.
Lemma in_turn_sched : upto in_turn (length sched) = sched.
Proof.
  rewrite upto_in_turn. assert (K : forall n, (n <= length sched)%nat -> turns_to n = firstn n sched); [|rewrite K by lia; apply firstn_all].
  induction n as [|n IH]; intros Hn; [reflexivity|]. cbn [turns_to]. rewrite IH by lia. unfold turn_at. destruct (nth_error sched n) as [x|] eqn:E; [|apply nth_error_None in E; lia].
  clear IH. revert n E Hn. induction sched as [|y l IHl]; intros [|n] E Hn; try discriminate; cbn in *; [congruence|]. f_equal. apply IHl; [exact E|lia].
Qed.
Notation w n := (run (upto in_turn n)).
Lemma in_turn_late n : (length sched <= n)%nat -> in_turn n = ((n mod length ls)%nat, good, next_time (w n) (n mod length ls)).
Proof. intros H. unfold in_turn, turn_at. rewrite (proj2 (nth_error_None sched n) H), upto_in_turn. reflexivity. Qed.
Lemma in_turn_fair : (forall i n, (i < length ls)%nat -> exists m, (n <= m)%nat /\ (ydone (w m) i \/ fst (fst (in_turn m)) = i /\ w (S m) <> w m)) /\ system_works in_turn /\ hseen_in_time (fun n => w n) in_turn.
Proof.
  split; [|split].
  - intros i n Hi. set (m := (i + (n + length sched) * length ls)%nat). assert (Em : (m mod length ls)%nat = i) by (unfold m; rewrite Nat.mod_add by lia; apply Nat.mod_small, Hi).
    assert (Hm : (n + length sched <= m)%nat) by (unfold m; nia). exists m. split; [lia|]. destruct (hsim_run C mem ms V ls stk rqs lms T lock fds pos st HS HN ls Hpre (upto in_turn m)) as (s1 & HM).
    destruct (done_dec (w m) i) as [D|D]; [destruct HM as (_ & -> & _); exact Hi|left; exact D|right]. pose proof (in_turn_late m ltac:(lia)) as Q. rewrite Em in Q. rewrite Q. split; [reflexivity|].
    rewrite upto_next, Q. unfold yh_exec at 1. rewrite fold_left_app. fold (w m). cbn [fold_left]. exact (next_time_moves s1 (w m) i HM Hi D).
  - exists (length sched). intros m Hm. rewrite (in_turn_late m Hm). exact good_ok.
  - intros n u Hu. exists (Nat.max n (length sched)). intros m h U W s k c Wc Hm Eh En Ec Eu _. rewrite (in_turn_late m ltac:(lia)) in Eh |- *. cbn [fst snd] in Eh |- *.
    unfold next_time. rewrite Eh, En, Ec, Eu. assert (Hu' : lookup (lk_msgs (yh_rng (w m))) lock_at u <> None).
    { apply (stays (fun n => lookup (lk_msgs (yh_rng (w n))) lock_at u <> None) n Hu); [|lia]. intros k0 _ X. rewrite upto_next. unfold yh_exec. rewrite fold_left_app. fold (w k0). cbn [fold_left]. apply message_stays, X. }
    destruct (hsim_run C mem ms V ls stk rqs lms T lock fds pos st HS HN ls Hpre (upto in_turn m)) as (s1 & ((T1 & nv & (M1 & M2 & _ & _ & VV & _) & _) & _)).
    rewrite (newest_spec _ T1 Wc M2 ltac:(left; congruence) ltac:(apply (VV s c Wc Ec))). destruct (Z_le_gt_dec u T1); [lia|]. destruct (Hu' (M2 u ltac:(lia))).
Qed.
End Prompt.

(** Every beginning of a run can be continued to such a schedule ... *)
Theorem C54_histories_fair_schedules : forall C mem ms V ls stk rqs lms T lock fds pos st,
  setting C mem ls stk rqs lock fds st -> shows ms V mem -> newest_is lms T lock ->
  forall sched, exists f, upto f (length sched) = sched /\
  let w n := yh_exec C st rqs (upto f n) (hbegin mem ms V ls stk rqs lms T fds pos) in
  (forall i n, (i < length ls)%nat -> exists m, (n <= m)%nat /\ (ydone (w m) i \/ fst (fst (f m)) = i /\ w (Datatypes.S m) <> w m)) /\
  system_works f /\ hseen_in_time w f.
Proof.
  intros C mem ms V ls stk rqs lms T lock fds pos st HS HV HN sched. exists (in_turn C mem ms V ls stk rqs lms T fds pos st sched).
  split; [apply in_turn_sched|exact (in_turn_fair C mem ms V ls stk rqs lms T lock fds pos st HS HV HN sched)].
Qed.
Print Assumptions C54_histories_fair_schedules.
(** ... and to one at whose end every thread has done all its actions. *)
Theorem C54_histories_ends : forall C mem ms V ls stk rqs lms T lock fds pos st,
  setting C mem ls stk rqs lock fds st -> shows ms V mem -> newest_is lms T lock ->
  forall sched, exists more, forall i me l, nth_error ls i = Some (me, l) ->
    exists v, ybetween (yh_exec C st rqs (sched ++ more) (hbegin mem ms V ls stk rqs lms T fds pos)) i (length l) v.
Proof.
  intros C mem ms V ls stk rqs lms T lock fds pos st HS HV HN sched. destruct (C54_histories_fair_schedules C mem ms V ls stk rqs lms T lock fds pos st HS HV HN sched) as (f & E & HF & HG & HSn).
  destruct (C54_histories_fair C mem ms V ls stk rqs lms T lock fds pos st f HS HV HN HF HG HSn) as (N & H). exists (map f (seq (length sched) N)). intros i me l Hi.
  destruct (H (length sched + N)%nat i me l ltac:(lia) Hi) as (v & Hv). exists v. unfold upto in Hv, E. rewrite seq_app, map_app, E in Hv. exact Hv.
Qed.
Print Assumptions C54_histories_ends.
(** A case that meets the hypotheses of [C54_histories_fair]: the threads of [C54_histories_hyps]. *)
Example C54_histories_fair_hyps : exists f,
  let w n := yh_exec C976 (fun p => (p * p + 7) mod 256) rqs976 (upto f n) (hbegin mem3 (first_messages mem3 0) (fun _ => 0) ls976 (zrep 300 0) rqs976 [(lock_at, 0, -1)] 0 [] 0) in
  (forall i n, (i < length ls976)%nat -> exists m, (n <= m)%nat /\ (ydone (w m) i \/ fst (fst (f m)) = i /\ w (Datatypes.S m) <> w m)) /\ system_works f /\ hseen_in_time w f.
Proof.
  destruct C54_histories_hyps as (H1 & H2 & H3). destruct (C54_histories_fair_schedules _ _ _ _ _ _ _ _ _ _ _ 0 _ H1 H2 H3 []) as (f & _ & H). exists f. exact H.
Qed.
