(** Threads with separate footprints do not disturb each other, whatever messages the relaxed memory
    lets them take. *)
From Verif Require Import CSem Conc ConcProofs Relaxed.

Lemma nth_setrx_eq {A} (l : list (prog A * view)) i p q : nth_error l i = Some q -> nth_error (set_rx l i p) i = Some p.
Proof. revert i; induction l; intros [|i] H; cbn in *; try discriminate; auto. Qed.
Lemma nth_setrx_ne {A} (l : list (prog A * view)) i j p : i <> j -> nth_error (set_rx l i p) j = nth_error l j.
Proof. revert i j; induction l; intros [|i] [|j] H; cbn; auto; try congruence. Qed.

Lemma lookup_cons a t b u v ms : lookup ((b, u, v) :: ms) a t = if (b =? a) && (u =? t) then Some v else lookup ms a t.
Proof. reflexivity. Qed.
Lemma lookup_ne a t b u v ms : b <> a \/ u <> t -> lookup ((b, u, v) :: ms) a t = lookup ms a t.
Proof. intros H. rewrite lookup_cons. destruct (Z.eqb_spec b a), (Z.eqb_spec u t); cbn [andb]; try reflexivity. lia. Qed.
Lemma lookup_eq a t v ms : lookup ((a, t, v) :: ms) a t = Some v.
Proof. rewrite lookup_cons, !Z.eqb_refl. reflexivity. Qed.
Lemma upd_eq V a t : upd V a t a = t. Proof. unfold upd. now rewrite Z.eqb_refl. Qed.
Lemma upd_ne V a t b : b <> a -> upd V a t b = V b. Proof. intros H. unfold upd. destruct (Z.eqb_spec b a); [congruence|reflexivity]. Qed.

Lemma joined_all {A} (V : view) (l : list (prog A * view)) a :
  (forall x, In x l -> snd x a = V a) -> joined V l a = V a.
Proof.
  induction l as [|x l IH]; intros H; [reflexivity|].
  change (joined V (x :: l) a) with (Z.max (snd x a) (joined V l a)).
  rewrite IH by (intros y Hy; apply H; right; exact Hy). rewrite (H x) by (left; reflexivity). lia.
Qed.
Lemma joined_one {A} (V : view) (l : list (prog A * view)) a : forall i x, nth_error l i = Some x -> V a <= snd x a ->
  (forall j y, j <> i -> nth_error l j = Some y -> snd y a = V a) -> joined V l a = snd x a.
Proof.
  induction l as [|y l IH]; intros i x E H HO; [destruct i; discriminate|].
  change (joined V (y :: l) a) with (Z.max (snd y a) (joined V l a)). destruct i as [|i]; cbn in E.
  - injection E as ->. rewrite joined_all; [lia|]. intros z Hz. apply In_nth_error in Hz as (j & Hj).
    apply (HO (S j) z); [lia|exact Hj].
  - rewrite (IH i x E H); [|intros j z Hj Ej; apply (HO (S j) z); [lia|exact Ej]].
    rewrite (HO O y) by (auto; reflexivity). lia.
Qed.

Section Inter.
Variables (A : Type) (P : list (prog A)) (R W : nat -> Z -> Prop) (mem0 : list Z) (V0 : view) (ms0 : list message).
Hypothesis HO : forall i p, nth_error P i = Some p -> obeys (R i) (W i) p mem0.
Hypothesis HWR : forall i a, W i a -> R i a.
Hypothesis HD : forall i j a, i <> j -> W i a -> R j a -> False.
Hypothesis HV : shows ms0 V0 mem0.

Definition rstart : rxworld A := mkrx (zlen mem0) ms0 (map (fun p => (p, V0)) P).

(** What thread i, now p' with view v, knows. *)
Definition rthr (ms : list message) (i : nat) (p p' : prog A) (v : view) (m : list Z) : Prop :=
  zlen m = zlen mem0 /\ obeys (R i) (W i) p' m /\ solo p' m 0 = solo p mem0 0 /\
  (forall a, 0 <= a < zlen mem0 -> R i a -> lookup ms a (v a) = Some (znth m a) /\ forall t, v a < t -> lookup ms a t = None) /\
  (forall a, V0 a <= v a) /\ (forall a, v a = V0 a \/ W i a).
Definition rinv (w : rxworld A) : Prop :=
  rx_len w = zlen mem0 /\
  (forall a, (forall t, lookup (rx_msgs w) a t = lookup ms0 a t) \/ exists i x, nth_error (rx_thr w) i = Some x /\ snd x a <> V0 a) /\
  (forall i, nth_error (rx_thr w) i = None <-> nth_error P i = None) /\
  forall i p p' v, nth_error P i = Some p -> nth_error (rx_thr w) i = Some (p', v) -> exists m, rthr (rx_msgs w) i p p' v m.

Lemma rinv_init : rinv rstart.
Proof.
  unfold rstart. split; [reflexivity|]. split; [intros a; left; reflexivity|]. cbn [rx_thr rx_msgs]. split.
  - intros i. rewrite nth_error_map. destruct (nth_error P i); cbn; split; congruence.
  - intros i p p' v E E'. rewrite nth_error_map, E in E'. injection E' as <- <-. exists mem0.
    split; [reflexivity|]. split; [now apply HO|]. split; [reflexivity|]. split; [intros a Ha _; apply HV; exact Ha|]. split; [intros; lia|left; reflexivity].
Qed.

(** A turn of thread i changes nothing, or is its next action as if it were alone. *)
Lemma rinv_turn_cases w i t : rinv w -> let w' := rx_turn (i, t) w in
  (w' = w \/
   exists p p' v m p1 v1 m1, nth_error P i = Some p /\ nth_error (rx_thr w) i = Some (p', v) /\ rthr (rx_msgs w) i p p' v m /\
     nth_error (rx_thr w') i = Some (p1, v1) /\ rthr (rx_msgs w') i p p1 v1 m1 /\ (actions p' m 0 = Datatypes.S (actions p1 m1 0))%nat) /\
  (forall j, j <> i -> nth_error (rx_thr w') j = nth_error (rx_thr w) j) /\ rinv w'.
Proof.
  intros (L & Ms & Dom & Th). assert (I0 : rinv w) by (split; [exact L|split; [exact Ms|split; assumption]]). cbv zeta. unfold rx_turn.
  destruct (nth_error (rx_thr w) i) as [[p' v]|] eqn:Ei; [|split; [left; reflexivity|split; [reflexivity|exact I0]]].
  destruct (nth_error P i) as [p|] eqn:Ep; [|apply Dom in Ep; congruence].
  destruct (Th i p p' v Ep Ei) as (m & Hm). pose proof Hm as (Lm & Om & Sm & Am & Gm & Um).
  assert (DOM : forall (x : prog A * view), forall j, nth_error (set_rx (rx_thr w) i x) j = None <-> nth_error P j = None).
  { intros x j. destruct (Nat.eq_dec i j) as [<-|Hn]; [rewrite (nth_setrx_eq _ _ _ _ Ei); split; intros; congruence|rewrite nth_setrx_ne by exact Hn; apply Dom]. }
  destruct p' as [r|e|a k|a x k|k|x k]; cbn [obeys] in Om; try contradiction.
  1,2: split; [left; reflexivity|split; [reflexivity|exact I0]].
  - destruct Om as (Hin & HR & Om). apply in_mem_true in Hin.
    assert (Hin' : (0 <=? a) && (a <? rx_len w) = true) by (apply andb_true_iff; split; [apply Z.leb_le|apply Z.ltb_lt]; lia). rewrite Hin'.
    unfold rx_load. destruct (Z.leb_spec (v a) t) as [Ht|Ht]; [|split; [left; reflexivity|split; [reflexivity|exact I0]]].
    destruct (Am a ltac:(lia) HR) as (A1 & A2).
    destruct (Z.eq_dec (v a) t) as [<-|Hne]; [|rewrite A2 by lia; split; [left; reflexivity|split; [reflexivity|exact I0]]].
    rewrite A1. cbn [rx_thr rx_msgs].
    assert (UV : forall b, upd v a (v a) b = v b) by (intros b; unfold upd; destruct (Z.eqb_spec b a) as [->|]; reflexivity).
    assert (N : rthr (rx_msgs w) i p (k (znth m a)) (upd v a (v a)) m).
    { split; [exact Lm|]. split; [exact Om|]. split; [rewrite <- Sm; cbn [solo]; unfold in_mem; replace ((0 <=? a) && (a <? zlen m)) with true by (symmetry; apply andb_true_iff; split; [apply Z.leb_le|apply Z.ltb_lt]; lia); reflexivity|].
      split; [intros b Hb Rb; rewrite UV; apply Am; assumption|]. split; intros b; rewrite UV; [apply Gm|apply Um]. }
    split; [right|split].
    + exists p, (Ld a k), v, m, (k (znth m a)), (upd v a (v a)), m. split; [reflexivity|]. split; [reflexivity|]. split; [exact Hm|].
      split; [exact (nth_setrx_eq _ _ _ _ Ei)|]. split; [exact N|]. cbn [actions]. unfold in_mem. replace ((0 <=? a) && (a <? zlen m)) with true by (symmetry; apply andb_true_iff; split; [apply Z.leb_le|apply Z.ltb_lt]; lia). reflexivity.
    + intros j Hj. apply nth_setrx_ne. congruence.
    + split; [exact L|]. cbn [rx_thr rx_msgs]. split; [|split; [apply DOM|]].
      * intros b. destruct (Ms b) as [Hb|(j & y & Ej & Hy)]; [left; exact Hb|right]. destruct (Nat.eq_dec i j) as [<-|Hn].
        -- rewrite Ei in Ej. injection Ej as <-. eexists i, _. split; [exact (nth_setrx_eq _ _ _ _ Ei)|]. cbn [snd] in *. rewrite UV. exact Hy.
        -- exists j, y. split; [rewrite nth_setrx_ne by exact Hn; exact Ej|exact Hy].
      * intros j q q' u Eq Eu. destruct (Nat.eq_dec i j) as [<-|Hn].
        -- rewrite (nth_setrx_eq _ _ _ _ Ei) in Eu. injection Eu as <- <-. rewrite Ep in Eq. injection Eq as <-. exists m. exact N.
        -- rewrite nth_setrx_ne in Eu by exact Hn. exact (Th j q q' u Eq Eu).
  - destruct Om as (Hin & HW & Om). apply in_mem_true in Hin. pose proof (HWR i a HW) as HR.
    assert (Hin' : (0 <=? a) && (a <? rx_len w) = true) by (apply andb_true_iff; split; [apply Z.leb_le|apply Z.ltb_lt]; lia). rewrite Hin'.
    unfold rx_store. destruct (Z.ltb_spec (v a) t) as [Ht|Ht]; [|split; [left; reflexivity|split; [reflexivity|exact I0]]].
    destruct (Am a ltac:(lia) HR) as (A1 & A2). rewrite (A2 t Ht). cbn [rx_thr rx_msgs].
    assert (N : rthr ((a, t, x) :: rx_msgs w) i p k (upd v a t) (zset m a x)).
    { split; [now rewrite zlen_zset|]. split; [exact Om|]. split; [rewrite <- Sm; cbn [solo]; unfold in_mem; replace ((0 <=? a) && (a <? zlen m)) with true by (symmetry; apply andb_true_iff; split; [apply Z.leb_le|apply Z.ltb_lt]; lia); reflexivity|].
      split; [|split].
      - intros b Hb Rb. destruct (Z.eq_dec b a) as [->|Hn].
        + rewrite upd_eq, lookup_eq, znth_zset_eq by lia. split; [reflexivity|]. intros u Hu. rewrite lookup_ne by lia. apply A2. lia.
        + rewrite upd_ne by exact Hn. rewrite lookup_ne by lia. rewrite znth_zset_ne by lia. destruct (Am b Hb Rb) as (B1 & B2). split; [exact B1|].
          intros u Hu. rewrite lookup_ne by lia. apply B2. exact Hu.
      - intros b. destruct (Z.eq_dec b a) as [->|Hn]; [rewrite upd_eq; specialize (Gm a); lia|rewrite upd_ne by exact Hn; apply Gm].
      - intros b. destruct (Z.eq_dec b a) as [->|Hn]; [right; exact HW|rewrite upd_ne by exact Hn; apply Um]. }
    split; [right|split].
    + exists p, (St a x k), v, m, k, (upd v a t), (zset m a x). split; [reflexivity|]. split; [reflexivity|]. split; [exact Hm|].
      split; [exact (nth_setrx_eq _ _ _ _ Ei)|]. split; [exact N|]. cbn [actions]. unfold in_mem. replace ((0 <=? a) && (a <? zlen m)) with true by (symmetry; apply andb_true_iff; split; [apply Z.leb_le|apply Z.ltb_lt]; lia). reflexivity.
    + intros j Hj. apply nth_setrx_ne. congruence.
    + split; [exact L|]. cbn [rx_thr rx_msgs]. split; [|split; [apply DOM|]].
      * intros b. destruct (Z.eq_dec b a) as [->|Hba].
        { right. eexists i, _. split; [exact (nth_setrx_eq _ _ _ _ Ei)|]. cbn [snd]. rewrite upd_eq. specialize (Gm a). lia. }
        destruct (Ms b) as [Hb|(j & y & Ej & Hy)]; [left; intros u; rewrite lookup_ne by lia; apply Hb|right]. destruct (Nat.eq_dec i j) as [<-|Hn].
        -- rewrite Ei in Ej. injection Ej as <-. eexists i, _. split; [exact (nth_setrx_eq _ _ _ _ Ei)|]. cbn [snd] in *. rewrite upd_ne by exact Hba. exact Hy.
        -- exists j, y. split; [rewrite nth_setrx_ne by exact Hn; exact Ej|exact Hy].
      * intros j q q' u Eq Eu. destruct (Nat.eq_dec i j) as [<-|Hn].
        -- rewrite (nth_setrx_eq _ _ _ _ Ei) in Eu. injection Eu as <- <-. rewrite Ep in Eq. injection Eq as <-. eexists. exact N.
        -- rewrite nth_setrx_ne in Eu by exact Hn. destruct (Th j q q' u Eq Eu) as (m' & Lm' & Om' & Sm' & Am' & Gm' & Um'). exists m'.
           split; [exact Lm'|]. split; [exact Om'|]. split; [exact Sm'|]. split; [|split; assumption].
           intros b Hb Rb. assert (b <> a) by (intros ->; exact (HD i j a Hn HW Rb)). destruct (Am' b Hb Rb) as (B1 & B2).
           split; [rewrite lookup_ne by lia; exact B1|]. intros u' Hu'. rewrite lookup_ne by lia. apply B2. exact Hu'.
Qed.
Lemma rinv_turn w it : rinv w -> rinv (rx_turn it w).
Proof. destruct it as [i t]. intros H. exact (proj2 (proj2 (rinv_turn_cases w i t H))). Qed.
Lemma rinv_exec sched w : rinv w -> rinv (rx_exec sched w).
Proof. revert w; induction sched as [|it s IH]; intros w H; cbn; [exact H|apply IH, rinv_turn, H]. Qed.

(** A thread that has not ended can always take its next action. *)
Lemma rx_next w i p p' v : rinv w -> nth_error P i = Some p -> nth_error (rx_thr w) i = Some (p', v) -> ended p' = None ->
  exists t, rx_turn (i, t) w <> w.
Proof.
  intros (L & Ms & Dom & Th) Ep Ei He. destruct (Th i p p' v Ep Ei) as (m & Lm & Om & Sm & Am & Gm & Um). unfold rx_turn. rewrite Ei.
  destruct p' as [r|e|a k|a x k|k|x k]; cbn [obeys ended] in *; try discriminate; try contradiction.
  - destruct Om as (Hin & HR & Om). apply in_mem_true in Hin.
    assert (Hin' : (0 <=? a) && (a <? rx_len w) = true) by (apply andb_true_iff; split; [apply Z.leb_le|apply Z.ltb_lt]; lia). rewrite Hin'.
    exists (v a). unfold rx_load. rewrite Z.leb_refl. destruct (Am a ltac:(lia) HR) as (A1 & A2). rewrite A1. intros E.
    apply (f_equal (fun z => nth_error (rx_thr z) i)) in E. cbn [rx_thr] in E. rewrite (nth_setrx_eq _ _ _ _ Ei), Ei in E.
    injection E as E _. clear - E. symmetry in E. revert E. generalize (znth m a). intros z E.
    assert (forall q : prog A, q = Ld a k -> q <> k z) as F; [|exact (F _ eq_refl E)].
    clear E. intros q. revert a k z. induction q as [r0|e0|b q IH|b y q IH|q IH|y q IH]; intros a k z E F; try discriminate.
    injection E as -> <-. symmetry in F. exact (IH z a q z F eq_refl).
  - destruct Om as (Hin & HW & Om). apply in_mem_true in Hin.
    assert (Hin' : (0 <=? a) && (a <? rx_len w) = true) by (apply andb_true_iff; split; [apply Z.leb_le|apply Z.ltb_lt]; lia). rewrite Hin'.
    exists (v a + 1). unfold rx_store. destruct (Z.ltb_spec (v a) (v a + 1)); [|lia]. destruct (Am a ltac:(lia) (HWR i a HW)) as (A1 & A2). rewrite A2 by lia. intros E.
    apply (f_equal (fun z => length (rx_msgs z))) in E. cbn [rx_msgs length] in E. lia.
Qed.
Lemma finish_one n : forall w i p p' v m, rinv w -> nth_error P i = Some p -> nth_error (rx_thr w) i = Some (p', v) ->
  rthr (rx_msgs w) i p p' v m -> actions p' m 0 = n ->
  exists more, (exists q r, nth_error (rx_thr (rx_exec more w)) i = Some q /\ ended (fst q) = Some r) /\
    forall j, j <> i -> nth_error (rx_thr (rx_exec more w)) j = nth_error (rx_thr w) j.
Proof.
  induction n as [|n IH]; intros w i p p' v m I Ep Ei Hm Hn.
  - apply (ended_iff A p' m 0) in Hn as (r & Hr). exists []. split; [exists (p', v), r; auto|reflexivity].
  - destruct (ended p') as [r|] eqn:He.
    { assert (F : actions p' m 0 = O) by (apply (ended_iff A); exists r; exact He). lia. }
    destruct (rx_next w i p p' v I Ep Ei He) as (t & Ht). destruct (rinv_turn_cases w i t I) as ([E|H] & Hj & I'); [contradiction|].
    destruct H as (q & q' & u & m0 & p1 & v1 & m1 & Eq & Eq' & Hm0 & E1 & H1 & C1). rewrite Ep in Eq. injection Eq as <-. rewrite Ei in Eq'. injection Eq' as <- <-.
    assert (Hact : actions p' m0 0 = actions p' m 0).
    { assert (Ag : forall a, 0 <= a < zlen mem0 -> R i a -> znth m0 a = znth m a).
      { intros a Ha Ra. destruct Hm as (_ & _ & _ & Am & _). destruct Hm0 as (_ & _ & _ & Am0 & _). destruct (Am a Ha Ra) as (X & _). destruct (Am0 a Ha Ra) as (Y & _). congruence. }
      destruct Hm as (Lm & Om & _). destruct Hm0 as (Lm0 & Om0 & _). clear - Lm Lm0 Om Om0 Ag HWR. revert m m0 Lm Lm0 Om Om0 Ag.
      induction p' as [r|e|a k IH|a x k IH|k IH|x k IH]; intros m m0 Lm Lm0 Om Om0 Ag; cbn [actions obeys] in *; try reflexivity; try contradiction.
      - destruct Om as (Hin & HR & Om), Om0 as (Hin0 & _ & Om0). rewrite Hin, Hin0. f_equal. apply in_mem_true in Hin. rewrite Ag in * by (try lia; exact HR). apply IH; auto.
      - destruct Om as (Hin & HW & Om), Om0 as (Hin0 & _ & Om0). rewrite Hin, Hin0. f_equal. apply in_mem_true in Hin. apply IH; rewrite ?zlen_zset; auto.
        intros b Hb Rb. destruct (Z.eq_dec a b) as [<-|Hne]; [rewrite !znth_zset_eq by lia; reflexivity|rewrite !znth_zset_ne by lia; auto]. }
    destruct (IH (rx_turn (i, t) w) i p p1 v1 m1 I' Ep E1 H1 ltac:(lia)) as (more & F1 & F2).
    exists ((i, t) :: more). split; [exact F1|]. intros j Hne. change (rx_exec ((i, t) :: more) w) with (rx_exec more (rx_turn (i, t) w)). rewrite F2 by exact Hne. apply Hj. exact Hne.
Qed.
Lemma rx_exec_app s1 s2 (w : rxworld A) : rx_exec (s1 ++ s2) w = rx_exec s2 (rx_exec s1 w).
Proof. apply fold_left_app. Qed.
Lemma finish_upto w n : rinv w -> exists more, forall i x, (i < n)%nat -> nth_error (rx_thr (rx_exec more w)) i = Some x -> exists r, ended (fst x) = Some r.
Proof.
  intros I. induction n as [|n (more & H)]; [exists []; intros; lia|].
  pose proof (rinv_exec more w I) as I'. destruct (nth_error (rx_thr (rx_exec more w)) n) as [[p' v]|] eqn:En.
  - destruct (nth_error P n) as [p|] eqn:Ep; [|apply (proj1 (proj2 (proj2 I'))) in Ep; congruence].
    destruct (proj2 (proj2 (proj2 I')) n p p' v Ep En) as (m & Hm).
    destruct (finish_one _ _ n p p' v m I' Ep En Hm eq_refl) as (more2 & (q & r & E1 & E2) & F).
    exists (more ++ more2). rewrite rx_exec_app. intros i x Hi Ex. destruct (Nat.eq_dec i n) as [->|Hne].
    + rewrite E1 in Ex. injection Ex as <-. exists r. exact E2.
    + rewrite F in Ex by exact Hne. apply (H i x); [lia|exact Ex].
  - exists more. intros i x Hi Ex. destruct (Nat.eq_dec i n) as [->|Hne]; [congruence|apply (H i x); [lia|exact Ex]].
Qed.

(** What holds after any schedule. *)
Theorem rx_interleave sched : let w := rx_exec sched rstart in
  (forall i p, nth_error P i = Some p -> exists p' v, nth_error (rx_thr w) i = Some (p', v) /\
     forall r, ended p' = Some r -> exists m', (solo p mem0 0 = (r, m', 0) /\ zlen m' = zlen mem0) /\
       forall a, 0 <= a < zlen mem0 -> R i a -> lookup (rx_msgs w) a (v a) = Some (znth m' a) /\ forall t, v a < t -> lookup (rx_msgs w) a t = None) /\
  (exists mem', zlen mem' = zlen mem0 /\ shows (rx_msgs w) (joined V0 (rx_thr w)) mem' /\
     (forall a, 0 <= a < zlen mem0 -> (forall i p, nth_error P i = Some p -> ~ W i a) -> znth mem' a = znth mem0 a) /\
     forall i p p' v r, nth_error P i = Some p -> nth_error (rx_thr w) i = Some (p', v) -> ended p' = Some r ->
       exists m', (solo p mem0 0 = (r, m', 0) /\ zlen m' = zlen mem0) /\ forall a, 0 <= a < zlen mem0 -> R i a -> znth mem' a = znth m' a) /\
  exists more, forall i x, nth_error (rx_thr (rx_exec (sched ++ more) rstart)) i = Some x -> exists r, ended (fst x) = Some r.
Proof.
  pose proof (rinv_exec sched _ rinv_init) as I. pose proof I as (L & Ms & Dom & Th). cbv zeta. set (w := rx_exec sched rstart) in *. split; [|split].
  - intros i p Ep. destruct (nth_error (rx_thr w) i) as [[p' v]|] eqn:Ei; [|apply Dom in Ei; congruence]. exists p', v. split; [reflexivity|].
    intros r Hr. destruct (Th i p p' v Ep Ei) as (m & Lm & Om & Sm & Am & _). exists m. rewrite (ended_solo A p' r m 0 Hr) in Sm. split; [split; [congruence|exact Lm]|exact Am].
  - set (J := joined V0 (rx_thr w)).
    (* the thread that changed a byte, if there is one *)
    assert (CASE : forall a, (exists i x, nth_error (rx_thr w) i = Some x /\ snd x a <> V0 a) \/ forall x, In x (rx_thr w) -> snd x a = V0 a).
    { intros a. generalize (rx_thr w). intros l. induction l as [|y l [(i & x & Ex & Hx)|H]].
      - right. intros x [].
      - left. exists (S i), x. auto.
      - destruct (Z.eq_dec (snd y a) (V0 a)) as [E|E]; [right; intros x [<-|Hx]; auto|left; exists O, y; auto]. }
    assert (OWN : forall i p p' v m a, nth_error P i = Some p -> nth_error (rx_thr w) i = Some (p', v) -> rthr (rx_msgs w) i p p' v m -> R i a -> J a = v a).
    { intros i p p' v m a Ep Ei (_ & _ & _ & _ & Gm & Um) HR. unfold J. apply (joined_one V0 (rx_thr w) a i (p', v) Ei (Gm a)).
      intros j [q u] Hj Ej. cbn [snd]. destruct (nth_error P j) as [pj|] eqn:Epj; [|apply Dom in Epj; congruence].
      destruct (Th j pj q u Epj Ej) as (mj & _ & _ & _ & _ & _ & Uj). destruct (Uj a) as [E|HW]; [exact E|]. exfalso. exact (HD j i a Hj HW HR). }
    exists (ztab (zlen mem0) (fun a => match lookup (rx_msgs w) a (J a) with Some x => x | None => 0 end)).
    assert (LZ : zlen (ztab (zlen mem0) (fun a => match lookup (rx_msgs w) a (J a) with Some x => x | None => 0 end)) = zlen mem0) by (apply zlen_ztab, zlen_nonneg).
    split; [exact LZ|]. split; [|split].
    + intros a Ha. rewrite LZ in Ha. rewrite znth_ztab by exact Ha. destruct (CASE a) as [(i & [p' v] & Ei & Hx)|H].
      * cbn [snd] in Hx. destruct (nth_error P i) as [p|] eqn:Ep; [|apply Dom in Ep; congruence]. destruct (Th i p p' v Ep Ei) as (m & Hm). pose proof Hm as (_ & _ & _ & Am & Gm & Um).
        destruct (Um a) as [E|HW]; [contradiction|]. fold J. rewrite (OWN i p p' v m a Ep Ei Hm (HWR i a HW)). destruct (Am a Ha (HWR i a HW)) as (A1 & A2). rewrite A1. split; [reflexivity|exact A2].
      * fold J. assert (EJ : J a = V0 a) by (apply joined_all; exact H). rewrite EJ. destruct (Ms a) as [E|(i & x & Ex & Hx)]; [|exfalso; apply Hx, H; eapply nth_error_In, Ex].
        destruct (HV a Ha) as (B1 & B2). rewrite E, B1. split; [reflexivity|]. intros t Ht. rewrite E. apply B2. exact Ht.
    + intros a Ha HN. rewrite znth_ztab by exact Ha. destruct (CASE a) as [(i & [p' v] & Ei & Hx)|H].
      * cbn [snd] in Hx. destruct (nth_error P i) as [p|] eqn:Ep; [|apply Dom in Ep; congruence]. destruct (Th i p p' v Ep Ei) as (m & _ & _ & _ & _ & _ & Um).
        destruct (Um a) as [E|HW]; [contradiction|]. exfalso. exact (HN i p Ep HW).
      * assert (EJ : J a = V0 a) by (apply joined_all; exact H). rewrite EJ. destruct (Ms a) as [E|(i & x & Ex & Hx)]; [|exfalso; apply Hx, H; eapply nth_error_In, Ex].
        destruct (HV a Ha) as (B1 & B2). rewrite E, B1. reflexivity.
    + intros i p p' v r Ep Ei Hr. destruct (Th i p p' v Ep Ei) as (m & Hm). pose proof Hm as (Lm & Om & Sm & Am & Gm & Um). exists m.
      rewrite (ended_solo A p' r m 0 Hr) in Sm. split; [split; [congruence|exact Lm]|]. intros a Ha Ra. rewrite znth_ztab by exact Ha. rewrite (OWN i p p' v m a Ep Ei Hm Ra). destruct (Am a Ha Ra) as (A1 & _). now rewrite A1.
  - destruct (finish_upto w (length P) I) as (more & H). exists more. rewrite rx_exec_app. fold w. intros i x Ex. apply (H i x); [|exact Ex].
    assert (nth_error P i <> None). { intros E. apply (proj1 (proj2 (proj2 (rinv_exec more w I)))) in E. congruence. } apply nth_error_Some. assumption.
Qed.
End Inter.

Lemma first_shows mem g : shows (first_messages mem g) (fun _ => 0) mem.
Proof.
  intros a Ha. unfold first_messages. assert (G : global_at <> a) by (unfold global_at; lia).
  assert (H : forall l t, lookup (map (fun b => (b, 0, znth mem b)) l) a t = if (existsb (Z.eqb a) l) && (0 =? t) then Some (znth mem a) else None).
  { induction l as [|b l IH]; intros t; [reflexivity|]. cbn [map lookup existsb]. rewrite IH, (Z.eqb_sym a b). destruct (Z.eqb_spec b a) as [->|]; cbn [andb orb]; [|reflexivity].
    destruct (0 =? t); [reflexivity|]. rewrite andb_false_r. reflexivity. }
  split.
  - rewrite lookup_ne by auto. rewrite H. replace (existsb (Z.eqb a) (ztab (zlen mem) (fun a => a))) with true; [reflexivity|].
    symmetry. apply existsb_exists. exists a. split; [|apply Z.eqb_refl].
    assert (N : znth (ztab (zlen mem) (fun a => a)) a = a) by (apply znth_ztab; exact Ha).
    rewrite <- N. unfold znth. destruct (Z.ltb_spec a 0); [lia|]. apply nth_In. assert (LT : zlen (ztab (zlen mem) (fun a => a)) = zlen mem) by (apply zlen_ztab; lia). unfold zlen in *. apply Nat2Z.inj_lt. rewrite Z2Nat.id by lia. rewrite LT. lia.
  - intros t Ht. rewrite lookup_ne by auto. rewrite H. destruct (Z.eqb_spec 0 t); [lia|]. rewrite andb_false_r. reflexivity.
Qed.
