(** Invariants of the machine of ConcRandom.v over every schedule. *)
From Verif Require Import CSem Random ConcRandom.

Lemma nth_setc_eq l i c d : nth_error l i = Some d -> nth_error (set_call l i c) i = Some c.
Proof. revert i; induction l; intros [|i] H; cbn in *; try discriminate; auto. Qed.
Lemma nth_setc_ne l i j c : i <> j -> nth_error (set_call l i c) j = nth_error l j.
Proof. revert i j; induction l; intros [|i] [|j] H; cbn; auto; try congruence. Qed.
Lemma length_setc l i c : length (set_call l i c) = length l.
Proof. revert i; induction l; intros [|i]; cbn; auto. Qed.
Lemma nth_setc l i j c d : nth_error (set_call l i c) j = Some d -> nth_error l i <> None ->
  (i = j /\ d = c) \/ (i <> j /\ nth_error l j = Some d).
Proof.
  intros H Hi. destruct (nth_error l i) as [x|] eqn:E; [|congruence]. destruct (Nat.eq_dec i j) as [<-|Hn].
  - rewrite (nth_setc_eq _ _ _ _ E) in H. injection H; auto.
  - rewrite nth_setc_ne in H by exact Hn. auto.
Qed.
Lemma is_open_in fds fd : is_open fds fd = true <-> In fd fds.
Proof.
  unfold is_open. rewrite existsb_exists. split; [intros (x & H & E%Z.eqb_eq); subst; exact H|intros H; exists fd; split; [exact H|apply Z.eqb_refl]].
Qed.

Section Inv.
Variables (st : Z -> Z) (mem0 : list Z) (pos0 : Z) (rqs : list (Z * Z)).
Hypothesis HR : forall i a n, nth_error rqs i = Some (a, n) -> 0 <= n < 2147483648 /\ 0 <= a /\ a + n <= zlen mem0.
Hypothesis HD : forall i j a n b m, i <> j -> nth_error rqs i = Some (a, n) -> nth_error rqs j = Some (b, m) -> a + n <= b \/ b + m <= a.

(** What is true of the call i at every moment. *)
Definition pc_ok (c : rcall) : Prop :=
  match rc_pc c with
  | PFault _ => False
  | PRet v => v = 0 /\ rc_n c = 0
  | PLock | PRead _ => 0 < rc_n c
  | _ => True
  end.
Definition call_ok (c : rcall) (a n : Z) : Prop :=
  rc_buf c = a /\ rc_n c + rc_count c = n /\ 0 <= rc_n c /\ 0 <= rc_count c /\ pc_ok c.
Definition opening (p : rpc) : Prop := match p with POpen | PStore _ | PDelay | PAgain => True | _ => False end.
Definition lock_ok (w : rworld) : Prop :=
  (rw_lock w = -1 \/ In (rw_lock w) (rw_open w)) /\ ~ In (-1) (rw_open w) /\
  (forall i c fd, nth_error (rw_calls w) i = Some c -> rc_pc c = PStore fd -> fd = -1 \/ In fd (rw_open w)) /\
  (rw_lock w = -1 -> (forall i c, nth_error (rw_calls w) i = Some c -> rc_pc c = PTest) \/
                     exists i c, nth_error (rw_calls w) i = Some c /\ opening (rc_pc c)).
(** [src i k]: where in the stream byte k of call i came from. *)
Definition data_ok (w : rworld) (src : nat -> Z -> Z) : Prop :=
  (forall i a n c, nth_error rqs i = Some (a, n) -> nth_error (rw_calls w) i = Some c ->
     forall k, 0 <= k < rc_count c -> znth (rw_mem w) (a + k) = st (src i k) /\ pos0 <= src i k < rw_pos w) /\
  (forall i c k l, nth_error (rw_calls w) i = Some c -> 0 <= k < l -> l < rc_count c -> src i k < src i l) /\
  (forall i j c d k l, nth_error (rw_calls w) i = Some c -> nth_error (rw_calls w) j = Some d ->
     0 <= k < rc_count c -> 0 <= l < rc_count d -> src i k = src j l -> i = j) /\
  (forall x, (forall i a n c, nth_error rqs i = Some (a, n) -> nth_error (rw_calls w) i = Some c -> ~ a <= x < a + rc_count c) ->
     znth (rw_mem w) x = znth mem0 x).
Definition rinv (w : rworld) : Prop :=
  length (rw_calls w) = length rqs /\ zlen (rw_mem w) = zlen mem0 /\ pos0 <= rw_pos w /\
  (forall i a n c, nth_error rqs i = Some (a, n) -> nth_error (rw_calls w) i = Some c -> call_ok c a n) /\
  lock_ok w /\ exists src, data_ok w src.

Lemma calls_nth w i c : length (rw_calls w) = length rqs -> nth_error (rw_calls w) i = Some c ->
  exists a n, nth_error rqs i = Some (a, n).
Proof.
  intros L H. assert (i < length rqs)%nat by (rewrite <- L; apply nth_error_Some; congruence).
  destruct (nth_error rqs i) as [[a n]|] eqn:E; [eauto|]. apply nth_error_None in E. lia.
Qed.

(** A step that leaves memory, position and the counters alone. *)
Lemma rinv_quiet w i c c' lock fds : rinv w -> nth_error (rw_calls w) i = Some c ->
  rc_buf c' = rc_buf c -> rc_n c' = rc_n c -> rc_count c' = rc_count c -> (pc_ok c -> pc_ok c') ->
  (0 <= rc_n c -> pc_ok c -> pc_ok c') ->
  lock_ok (mkrw (rw_mem w) lock fds (rw_pos w) (set_call (rw_calls w) i c')) ->
  rinv (mkrw (rw_mem w) lock fds (rw_pos w) (set_call (rw_calls w) i c')).
Proof.
  intros (L & LM & Hp & HC & _ & src & D1 & D2 & D3 & D4) Hi Eb En Ec _ Hpc HL.
  assert (Hne : nth_error (rw_calls w) i <> None) by congruence.
  assert (CC : forall j d, nth_error (set_call (rw_calls w) i c') j = Some d -> exists d', nth_error (rw_calls w) j = Some d' /\ rc_count d' = rc_count d).
  { intros j d Hd. apply nth_setc in Hd; [|exact Hne]. destruct Hd as [(<- & ->)|(_ & Hd)]; eauto. }
  split; [cbn; rewrite length_setc; exact L|]. split; [exact LM|]. split; [exact Hp|]. split.
  { cbn [rw_calls]. intros j a n d Hr Hd. apply nth_setc in Hd; [|exact Hne]. destruct Hd as [(<- & ->)|(_ & Hd)]; [|eauto].
    destruct (HC i a n c Hr Hi) as (Q1 & Q2 & Q3 & Q4 & Q5). unfold call_ok. rewrite Eb, En, Ec. auto 10. }
  split; [exact HL|]. exists src. split; [|split; [|split]]; cbn [rw_calls rw_mem rw_pos].
  - intros j a n d Hr Hd k Hk. destruct (CC j d Hd) as (d' & Hd' & E). apply (D1 j a n d'); auto; lia.
  - intros j d k l Hd H1 H2. destruct (CC j d Hd) as (d' & Hd' & E). apply (D2 j d'); auto; lia.
  - intros j j' d e k l Hd He H1 H2 E. destruct (CC j d Hd) as (d' & Hd' & E1). destruct (CC j' e He) as (e' & He' & E2).
    apply (D3 j j' d' e' k l); auto; lia.
  - intros x Hx. apply D4. intros j a n d Hr Hd Hk. destruct (Nat.eq_dec i j) as [<-|Hn].
    + rewrite Hi in Hd. injection Hd as <-. apply (Hx i a n c' Hr); [eapply nth_setc_eq; exact Hi|lia].
    + apply (Hx j a n d Hr); [rewrite nth_setc_ne by exact Hn; exact Hd|lia].
Qed.

(** lock_ok when the call i moves and neither lock nor the descriptors change. *)
Lemma lock_ok_move w i c c' mem pos : lock_ok w -> nth_error (rw_calls w) i = Some c ->
  (forall fd, rc_pc c' = PStore fd -> fd = -1 \/ In fd (rw_open w)) ->
  (rw_lock w = -1 -> opening (rc_pc c') \/ ~ opening (rc_pc c) /\ (rc_pc c <> PTest \/ opening (rc_pc c'))) ->
  lock_ok (mkrw mem (rw_lock w) (rw_open w) pos (set_call (rw_calls w) i c')).
Proof.
  intros (H1 & H2 & H3 & H4) Hi HS HO. assert (Hne : nth_error (rw_calls w) i <> None) by congruence.
  split; [exact H1|]. split; [exact H2|]. cbn [rw_calls rw_open rw_lock]. split.
  { intros j d fd Hd E. apply nth_setc in Hd; [|exact Hne]. destruct Hd as [(<- & ->)|(_ & Hd)]; [auto|eauto]. }
  intros El. specialize (HO El). destruct HO as [HO|(HO1 & HO2)].
  { right. exists i, c'. split; [eapply nth_setc_eq; exact Hi|exact HO]. }
  destruct (H4 El) as [HT|(j & d & Hd & Hop)].
  - destruct HO2 as [HO2|HO2]; [contradict HO2; eauto|]. right. exists i, c'. split; [eapply nth_setc_eq; exact Hi|exact HO2].
  - right. destruct (Nat.eq_dec i j) as [<-|Hn].
    + rewrite Hi in Hd. injection Hd as <-. contradiction.
    + exists j, d. split; [rewrite nth_setc_ne by exact Hn; exact Hd|exact Hop].
Qed.

Lemma rinv_turn w ia : rinv w -> rinv (rturn st ia w).
Proof.
  intros HI. destruct ia as [i a]. unfold rturn. cbn [fst snd]. destruct (nth_error (rw_calls w) i) as [c|] eqn:Hi; [|exact HI].
  pose proof HI as (L & LM & Hp & HC & HL & src & HDt).
  destruct (calls_nth w i c L Hi) as (ad & n & Hr). pose proof (HC i ad n c Hr Hi) as (Eb & En & Hn & Hc & Hpc).
  unfold rstep. destruct c as [b p n0 count]. cbn [rc_pc rc_buf rc_n rc_count] in *.
  destruct p as [| |fd| | | | |fd|v|e]; unfold at_; cbn [rc_buf rc_n rc_count].
  - (* PTest *)
    eapply rinv_quiet; eauto; cbn; try (destruct (rw_lock w =? -1); exact (fun _ => I) || exact (fun _ _ => I)).
    eapply lock_ok_move; [exact HL|exact Hi| |]; cbn.
    + intros fd. destruct (rw_lock w =? -1); discriminate.
    + intros ->. cbn. left. exact I.
  - (* POpen *)
    destruct (an_open a) as [fd|].
    + eapply rinv_quiet; eauto; cbn; auto.
      destruct HL as (H1 & H2 & H3 & H4). split; [cbn; tauto|]. split; [cbn; intros [H|H]; [lia|contradiction]|].
      cbn [rw_calls rw_open rw_lock]. split.
      { intros j d f Hd E. apply nth_setc in Hd; [|congruence]. destruct Hd as [(<- & ->)|(_ & Hd)].
        - cbn in E. injection E as <-. right. left. reflexivity.
        - destruct (H3 _ _ _ Hd E); [auto|right; right; assumption]. }
      intros _. right. exists i. eexists. split; [eapply nth_setc_eq; exact Hi|exact I].
    + eapply rinv_quiet; eauto; cbn; auto. eapply lock_ok_move; [exact HL|exact Hi| |]; cbn; [|auto].
      intros fd E. injection E as <-. auto.
  - (* PStore *)
    eapply rinv_quiet; eauto; cbn; auto.
    destruct HL as (H1 & H2 & H3 & H4). pose proof (H3 _ _ fd Hi eq_refl) as Hfd.
    split; [cbn; tauto|]. split; [exact H2|]. cbn [rw_calls rw_open rw_lock]. split.
    { intros j d f Hd E. apply nth_setc in Hd; [|congruence]. destruct Hd as [(<- & ->)|(_ & Hd)]; [discriminate|eauto]. }
    intros _. right. exists i. eexists. split; [eapply nth_setc_eq; exact Hi|exact I].
  - (* PDelay *)
    eapply rinv_quiet; eauto; cbn; auto. eapply lock_ok_move; [exact HL|exact Hi| |]; cbn; [discriminate|auto].
  - (* PAgain *)
    eapply rinv_quiet; eauto; cbn; try (destruct (rw_lock w =? -1); exact (fun _ => I) || exact (fun _ _ => I)).
    eapply lock_ok_move; [exact HL|exact Hi| |]; cbn.
    + intros fd. destruct (rw_lock w =? -1); discriminate.
    + intros ->. cbn. left. exact I.
  - (* PWhile *)
    eapply rinv_quiet; eauto; cbn; try (destruct (Z.ltb_spec 0 n0); unfold pc_ok; cbn; intros; try split; auto; lia).
    eapply lock_ok_move; [exact HL|exact Hi| |]; cbn.
    + intros fd. destruct (0 <? n0); discriminate.
    + intros _. right. split; [auto|]. left. discriminate.
  - (* PLock *)
    eapply rinv_quiet; eauto; cbn; auto. eapply lock_ok_move; [exact HL|exact Hi| |]; cbn; [discriminate|].
    intros _. right. split; [auto|]. left. discriminate.
  - (* PRead *)
    assert (LO : forall c' mem pos, rc_pc c' = PLock \/ rc_pc c' = PWhile -> lock_ok (mkrw mem (rw_lock w) (rw_open w) pos (set_call (rw_calls w) i c'))).
    { intros c' mem pos E. eapply lock_ok_move; [exact HL|exact Hi| |]; cbn; [destruct E as [E|E]; rewrite E; discriminate|].
      intros _. right. split; [auto|]. left. discriminate. }
    destruct (if is_open (rw_open w) fd then an_read a else RErr) as [|k].
    + eapply rinv_quiet; eauto; cbn; auto.
    + cbn in Hpc. unfold pc_ok in Hpc; cbn in Hpc. set (r := Z.max 0 (Z.min k n0)). assert (Hrr : 0 <= r <= n0) by lia.
      destruct (HR i ad n Hr) as (Hn31 & Ha & Hb).
      assert (EP : (m <- put (rw_mem w) (b + count) (ztab r (fun i => st (rw_pos w + i))) ;;
                 count' <- i32 (count + r) ;; n' <- i32 (n0 - r) ;; ret (m, count', n')) =
              Ok (zsplice (rw_mem w) (b + count) (ztab r (fun i => st (rw_pos w + i))), count + r, n0 - r)
                 [ESlice (b + count) r]).
      { unfold put. rewrite zlen_ztab by lia.
        replace (0 <=? b + count) with true by (symmetry; apply Z.leb_le; lia).
        replace (b + count + r <=? zlen (rw_mem w)) with true by (symmetry; apply Z.leb_le; lia). cbn [andb].
        unfold i32.
        replace (-2147483648 <=? count + r) with true by (symmetry; apply Z.leb_le; lia).
        replace (count + r <? 2147483648) with true by (symmetry; apply Z.ltb_lt; lia).
        replace (-2147483648 <=? n0 - r) with true by (symmetry; apply Z.leb_le; lia).
        replace (n0 - r <? 2147483648) with true by (symmetry; apply Z.ltb_lt; lia). reflexivity. }
      rewrite EP. clear EP. set (X := ztab r (fun i => st (rw_pos w + i))). assert (LX : zlen X = r) by (apply zlen_ztab; lia).
      set (c' := mkc b PWhile (n0 - r) (count + r)).
      assert (Hne : nth_error (rw_calls w) i <> None) by congruence.
      split; [cbn; rewrite length_setc; exact L|]. split; [cbn [rw_mem]; rewrite zlen_zsplice; lia|]. split; [cbn [rw_pos]; lia|]. split.
      { cbn [rw_calls]. intros j a' m d Hrj Hd. apply nth_setc in Hd; [|exact Hne]. destruct Hd as [(<- & ->)|(_ & Hd)]; [|eauto].
        rewrite Hr in Hrj. injection Hrj as <- <-. unfold call_ok, c'. cbn. repeat split; lia. }
      split; [apply LO; right; reflexivity|].
      destruct HDt as (D1 & D2 & D3 & D4).
      exists (fun j q => if Nat.eq_dec j i then (if q <? count then src i q else rw_pos w + (q - count)) else src j q).
      assert (OLD : forall j d q, nth_error (rw_calls w) j = Some d -> 0 <= q < rc_count d -> pos0 <= src j q < rw_pos w).
      { intros j d q Hd Hq. destruct (calls_nth w j d L Hd) as (aj & nj & Hrj). apply (D1 j aj nj d Hrj Hd q Hq). }
      split; [|split; [|split]]; cbn [rw_calls rw_mem rw_pos].
      * intros j aj nj d Hrj Hd q Hq. apply nth_setc in Hd; [|exact Hne]. destruct Hd as [(<- & ->)|(Hij & Hd)].
        -- rewrite Hr in Hrj. injection Hrj as <- <-. cbn in Hq. destruct (Nat.eq_dec i i) as [_|]; [|congruence].
           rewrite znth_zsplice by lia. rewrite LX. destruct (Z.ltb_spec q count).
           ++ replace (b + count <=? ad + q) with false by (symmetry; apply Z.leb_gt; lia). cbn [andb].
              destruct (D1 i ad n _ Hr Hi q ltac:(cbn; lia)) as (E & F). split; [exact E|lia].
           ++ replace (b + count <=? ad + q) with true by (symmetry; apply Z.leb_le; lia).
              replace (ad + q <? b + count + r) with true by (symmetry; apply Z.ltb_lt; lia). cbn [andb].
              unfold X. rewrite znth_ztab by lia. split; [f_equal; lia|lia].
        -- destruct (Nat.eq_dec j i) as [|_]; [congruence|]. destruct (D1 j aj nj d Hrj Hd q Hq) as (E & F).
           split; [|lia]. rewrite <- E. rewrite znth_zsplice by lia. rewrite LX.
           destruct (HC j aj nj d Hrj Hd) as (_ & Q2 & Q3 & _).
           destruct (HD i j ad n aj nj Hij Hr Hrj).
           ++ replace (aj + q <? b + count + r) with false by (symmetry; apply Z.ltb_ge; lia). rewrite andb_false_r. reflexivity.
           ++ replace (b + count <=? aj + q) with false by (symmetry; apply Z.leb_gt; lia). reflexivity.
      * intros j d q l Hd H1 H2. apply nth_setc in Hd; [|exact Hne]. destruct Hd as [(<- & ->)|(Hij & Hd)].
        -- destruct (Nat.eq_dec i i) as [_|]; [|congruence]. cbn in H2.
           destruct (Z.ltb_spec q count), (Z.ltb_spec l count); try lia.
           ++ apply (D2 i _ q l Hi); cbn; lia.
           ++ pose proof (OLD i _ q Hi ltac:(cbn; lia)). lia.
        -- destruct (Nat.eq_dec j i) as [|_]; [congruence|]. apply (D2 j d q l Hd); lia.
      * intros j j' d e q l Hd He H1 H2 E. apply nth_setc in Hd; [|exact Hne]. apply nth_setc in He; [|exact Hne].
        destruct Hd as [(<- & ->)|(Hij & Hd)], He as [(<- & ->)|(Hij' & He)].
        -- reflexivity.
        -- destruct (Nat.eq_dec i i) as [_|]; [|congruence]. destruct (Nat.eq_dec j' i) as [|_]; [congruence|]. cbn in H1.
           destruct (Z.ltb_spec q count); [apply (D3 i j' _ e q l Hi He); cbn; auto; lia|]. pose proof (OLD j' e l He H2). lia.
        -- destruct (Nat.eq_dec i i) as [_|]; [|congruence]. destruct (Nat.eq_dec j i) as [|_]; [congruence|]. cbn in H2.
           destruct (Z.ltb_spec l count); [apply (D3 j i d _ q l Hd Hi); cbn; auto; lia|]. pose proof (OLD j d q Hd H1). lia.
        -- destruct (Nat.eq_dec j i) as [|_]; [congruence|]. destruct (Nat.eq_dec j' i) as [|_]; [congruence|].
           apply (D3 j j' d e q l); auto.
      * intros x Hx. pose proof (Hx i ad n c' Hr ltac:(eapply nth_setc_eq; exact Hi)) as Hxi. cbn in Hxi.
        assert (Q : znth (zsplice (rw_mem w) (b + count) X) x = znth (rw_mem w) x).
        { destruct (Z.lt_ge_cases x 0) as [Hneg|Hpos]; [unfold znth; destruct (x <? 0) eqn:Ex; [reflexivity|apply Z.ltb_ge in Ex; lia]|].
          destruct (Z.lt_ge_cases x (zlen (rw_mem w))) as [Hin|Hout].
          - rewrite znth_zsplice by lia. rewrite LX. destruct (Z.leb_spec (b + count) x), (Z.ltb_spec x (b + count + r)); cbn [andb]; try reflexivity. lia.
          - rewrite !znth_out; [reflexivity|lia|rewrite zlen_zsplice; lia]. }
        rewrite Q. apply D4. intros j aj nj d Hrj Hd Hk. destruct (Nat.eq_dec i j) as [<-|Hij].
        -- rewrite Hi in Hd. injection Hd as <-. cbn in Hk. rewrite Hr in Hrj. injection Hrj as <- <-. lia.
        -- apply (Hx j aj nj d Hrj); [rewrite nth_setc_ne by exact Hij; exact Hd|lia].
  - (* PRet *)
    replace (mkrw _ _ _ _ _) with w; [exact HI|]. destruct w as [m l o p cs]. cbn in *. f_equal.
    clear - Hi. revert i Hi. induction cs as [|d cs IH]; intros [|i] Hi; cbn in *; try discriminate; [congruence|f_equal; apply IH, Hi].
  - destruct Hpc.
Qed.
Lemma rinv_exec sched : forall w, rinv w -> rinv (rexec st sched w).
Proof. induction sched as [|ia s IH]; intros w H; cbn; [exact H|]. apply IH, rinv_turn, H. Qed.

(* ------------------------------------------------------------------ *)
(** ** Progress when the system calls succeed *)
Definition good_answer (a : answer) : Prop := an_open a <> None /\ exists k, an_read a = RGive k /\ 1 <= k.
Definition good_sched (s : list (nat * answer)) : Prop := forall ia, In ia s -> good_answer (snd ia).
Definition turns (i : nat) (s : list (nat * answer)) : nat := count_occ Nat.eq_dec (map fst s) i.

(** No call is about to overwrite lock with -1. *)
Definition no_reset (w : rworld) : Prop := forall i c, nth_error (rw_calls w) i = Some c -> rc_pc c <> PStore (-1).

(** One action of call i with a good answer. *)
Lemma good_step_pc a c mem lock fds pos : good_answer a ->
  rc_pc (fst (fst (fst (fst (rstep st a c mem lock fds pos))))) <> PStore (-1).
Proof.
  intros (Ho & k & Hk & Hk1). unfold rstep. destruct c as [b p n0 count]. cbn [rc_pc rc_n rc_count rc_buf].
  destruct p as [| |fd| | | | |fd|v|e]; unfold at_; cbn [fst rc_pc]; try discriminate.
  - destruct (lock =? -1); discriminate.
  - destruct (an_open a) as [f|]; [|congruence]. cbn [fst rc_pc]. intros E. injection E. lia.
  - destruct (lock =? -1); discriminate.
  - destruct (0 <? n0); discriminate.
  - destruct (if is_open fds fd then an_read a else RErr); [discriminate|].
    match goal with |- context [match ?m with Ok _ _ => _ | Err _ => _ end] => destruct m as [[[x y] z] t|e] end; discriminate.
Qed.
Lemma nth_turn w j a i : nth_error (rw_calls (rturn st (j, a) w)) i =
  match nth_error (rw_calls w) i with
  | Some c => Some (if Nat.eq_dec j i then fst (fst (fst (fst (rstep st a c (rw_mem w) (rw_lock w) (rw_open w) (rw_pos w))))) else c)
  | None => None
  end.
Proof.
  unfold rturn. cbn [fst snd]. destruct (nth_error (rw_calls w) j) as [c|] eqn:E.
  - destruct (rstep st a c (rw_mem w) (rw_lock w) (rw_open w) (rw_pos w)) as [[[[c' m] l] f] p] eqn:Es. cbn [rw_calls].
    destruct (Nat.eq_dec j i) as [<-|Hn].
    + rewrite (nth_setc_eq _ _ _ _ E), E, Es. reflexivity.
    + rewrite nth_setc_ne by exact Hn. destruct (nth_error (rw_calls w) i); reflexivity.
  - destruct (nth_error (rw_calls w) i) as [d|] eqn:Ei; [|reflexivity]. destruct (Nat.eq_dec j i); [congruence|reflexivity].
Qed.
Lemma no_reset_one s : forall w i, good_sched s -> (0 < turns i s)%nat \/ (forall c, nth_error (rw_calls w) i = Some c -> rc_pc c <> PStore (-1)) ->
  forall c, nth_error (rw_calls (rexec st s w)) i = Some c -> rc_pc c <> PStore (-1).
Proof.
  induction s as [|[j a] s IH]; intros w i Hg H c; cbn [rexec fold_left].
  - destruct H as [H|H]; [unfold turns in H; cbn in H; lia|apply H].
  - apply IH; [intros ia Hia; apply Hg; right; exact Hia|].
    assert (Ga : good_answer a) by (apply (Hg (j, a)); left; reflexivity).
    destruct (Nat.eq_dec j i) as [E|Hn].
    + right. intros d Hd. rewrite nth_turn in Hd. destruct (nth_error (rw_calls w) i) as [e|]; [|discriminate].
      destruct (Nat.eq_dec j i); [|congruence]. injection Hd as <-. apply good_step_pc, Ga.
    + destruct H as [H|H]; [left; unfold turns in *; cbn [map fst count_occ] in H; destruct (Nat.eq_dec j i); [congruence|exact H]|].
      right. intros d Hd. rewrite nth_turn in Hd. destruct (nth_error (rw_calls w) i) as [e|]; [|discriminate].
      destruct (Nat.eq_dec j i); [congruence|]. injection Hd as <-. apply H. reflexivity.
Qed.
Lemma no_reset_turn w j a : good_answer a -> no_reset w -> no_reset (rturn st (j, a) w).
Proof.
  intros Ga H i c Hc. refine (no_reset_one [(j, a)] w i _ _ c Hc); [intros ia [<-|[]]; exact Ga|]. right. intros d. apply H.
Qed.
Lemma no_reset_exec s : forall w, good_sched s -> no_reset w -> no_reset (rexec st s w).
Proof.
  induction s as [|[j a] s IH]; intros w Hg H; cbn; [exact H|]. apply IH; [intros ia Hia; apply Hg; right; exact Hia|].
  apply no_reset_turn; [apply (Hg (j, a)); left; reflexivity|exact H].
Qed.
Lemma lock_turn w j a : rinv w -> no_reset w -> rw_lock w <> -1 -> rw_lock (rturn st (j, a) w) <> -1.
Proof.
  intros HI H Hl. unfold rturn. cbn [fst snd]. destruct (nth_error (rw_calls w) j) as [c|] eqn:E; [|exact Hl].
  assert (Hc : rc_pc c <> PStore (-1)) by (apply (H j c E)).
  unfold rstep. destruct c as [b p n0 count]. cbn [rc_pc rc_n rc_count rc_buf] in *.
  destruct p as [| |fd| | | | |fd|v|e]; cbn [rw_lock]; try exact Hl.
  - destruct (an_open a); exact Hl.
  - congruence.
  - destruct (if is_open (rw_open w) fd then an_read a else RErr); [exact Hl|].
    match goal with |- context [match ?m with Ok _ _ => _ | Err _ => _ end] => destruct m as [[[x y] z] t|e] end; exact Hl.
Qed.
Lemma lock_exec s : forall w, good_sched s -> rinv w -> no_reset w -> rw_lock w <> -1 -> rw_lock (rexec st s w) <> -1.
Proof.
  induction s as [|[j a] s IH]; intros w Hg HI H Hl; cbn; [exact Hl|].
  assert (Ga : good_answer a) by (apply (Hg (j, a)); left; reflexivity).
  apply IH; [intros ia Hia; apply Hg; right; exact Hia|apply rinv_turn, HI|apply no_reset_turn; assumption|apply lock_turn; assumption].
Qed.

(** Own actions until lock is set, while it is -1. *)
Definition dist (p : rpc) : option nat :=
  match p with PStore _ => Some 1%nat | POpen => Some 2%nat | PTest | PAgain => Some 3%nat | PDelay => Some 4%nat | _ => None end.
Lemma lock_set s : forall w i c d, good_sched s -> rinv w -> no_reset w ->
  nth_error (rw_calls w) i = Some c -> dist (rc_pc c) = Some d -> (d <= turns i s)%nat -> rw_lock (rexec st s w) <> -1.
Proof.
  induction s as [|[j a] s IH]; intros w i c d Hg HI HN Hi Hd Ht.
  - destruct (rc_pc c); cbn in Hd, Ht; try discriminate; injection Hd as <-; unfold turns in Ht; cbn in Ht; lia.
  - assert (Gs : good_sched s) by (intros ia Hia; apply Hg; right; exact Hia).
    assert (Ga : good_answer a) by (apply (Hg (j, a)); left; reflexivity).
    destruct (Z.eq_dec (rw_lock w) (-1)) as [El|El]; [|apply lock_exec; assumption].
    cbn [rexec fold_left]. change (rw_lock (rexec st s (rturn st (j, a) w)) <> -1).
    destruct (Z.eq_dec (rw_lock (rturn st (j, a) w)) (-1)) as [El'|El'];
      [|apply lock_exec; [exact Gs|apply rinv_turn, HI|apply no_reset_turn; assumption|exact El']].
    pose proof (nth_turn w j a i) as Hi'. rewrite Hi in Hi'. unfold turns in Ht. cbn [map fst count_occ] in Ht.
    destruct (Nat.eq_dec j i) as [->|Hn].
    2:{ apply (IH _ i c d Gs); [apply rinv_turn, HI|apply no_reset_turn; assumption|exact Hi'|exact Hd|exact Ht]. }
    pose proof (HN i c Hi) as Hc.
    assert (S : exists d', dist (rc_pc (fst (fst (fst (fst (rstep st a c (rw_mem w) (rw_lock w) (rw_open w) (rw_pos w))))))) = Some d' /\ (d' <= d - 1)%nat).
    { unfold rturn in El'. cbn [fst snd] in El'. rewrite Hi in El'. destruct c as [b p n0 count]. cbn [rc_pc] in *.
      unfold rstep in *. cbn [rc_pc rc_n rc_count rc_buf] in *. rewrite El in *. destruct Ga as (Go & _).
      destruct p as [| |fd| | | | |fd|v|e]; cbn in Hd; try discriminate; injection Hd as <-; unfold at_ in *; cbn [fst rc_pc rw_lock] in *.
      - cbn. eauto.
      - destruct (an_open a); [|congruence]. cbn. eauto.
      - congruence.
      - cbn. eauto.
      - cbn. eauto. }
    destruct S as (d' & Hd' & Hle). eapply (IH _ i) with (d := d'); [exact Gs|apply rinv_turn, HI|apply no_reset_turn; assumption|exact Hi'|exact Hd'|unfold turns; lia].
Qed.

(** Own actions until the call returns, once lock is set. *)
Definition todo (w : rworld) (c : rcall) : Z :=
  3 * rc_n c + match rc_pc c with
  | PTest => 6 | POpen => 5 | PStore _ => 4 | PDelay => 3 | PAgain => 2 | PWhile => 1 | PLock => 0
  | PRead fd => if is_open (rw_open w) fd then -1 else 1
  | PRet _ | PFault _ => 0
  end.
Lemma todo_nonneg w c a n : call_ok c a n -> 0 <= todo w c.
Proof.
  intros (_ & _ & H & _ & Hp). unfold todo, pc_ok in *. destruct (rc_pc c); try lia. destruct (is_open _ _); lia.
Qed.
Lemma opens_grow w j a fd : is_open (rw_open w) fd = true -> is_open (rw_open (rturn st (j, a) w)) fd = true.
Proof.
  rewrite !is_open_in. intros H. unfold rturn. cbn [fst snd]. destruct (nth_error (rw_calls w) j) as [c|]; [|exact H].
  unfold rstep. destruct c as [b p n0 count]. cbn [rc_pc rc_n rc_count rc_buf].
  destruct p as [| |f| | | | |f|v|e]; cbn [rw_open]; try exact H.
  - destruct (an_open a); [right|]; exact H.
  - destruct (if is_open (rw_open w) f then an_read a else RErr); [exact H|].
    match goal with |- context [match ?m with Ok _ _ => _ | Err _ => _ end] => destruct m as [[[x y] z] t|e] end; exact H.
Qed.
Lemma finish s : forall w i c, good_sched s -> rinv w -> no_reset w -> rw_lock w <> -1 ->
  nth_error (rw_calls w) i = Some c -> todo w c <= Z.of_nat (turns i s) ->
  exists c', nth_error (rw_calls (rexec st s w)) i = Some c' /\ rc_pc c' = PRet 0.
Proof.
  induction s as [|[j a] s IH]; intros w i c Hg HI HN Hl Hi Ht.
  - exists c. split; [exact Hi|]. destruct HI as (L & _ & _ & HC & _). destruct (calls_nth w i c L Hi) as (ad & n & Hr).
    destruct (HC i ad n c Hr Hi) as (_ & _ & H & _ & Hp). unfold turns in Ht. cbn in Ht. unfold todo, pc_ok in *.
    destruct (rc_pc c); try contradiction; try lia; [destruct (is_open _ _); lia|destruct Hp as (-> & _); reflexivity].
  - assert (Gs : good_sched s) by (intros ia Hia; apply Hg; right; exact Hia).
    assert (Ga : good_answer a) by (apply (Hg (j, a)); left; reflexivity).
    cbn [rexec fold_left]. change (exists c', nth_error (rw_calls (rexec st s (rturn st (j, a) w))) i = Some c' /\ rc_pc c' = PRet 0).
    pose proof (nth_turn w j a i) as Hi'. rewrite Hi in Hi'. unfold turns in Ht. cbn [map fst count_occ] in Ht.
    assert (K : forall c2, nth_error (rw_calls (rturn st (j, a) w)) i = Some c2 -> todo (rturn st (j, a) w) c2 <= Z.of_nat (turns i s) ->
      exists c', nth_error (rw_calls (rexec st s (rturn st (j, a) w))) i = Some c' /\ rc_pc c' = PRet 0).
    { intros c2 H2 H3. apply (IH _ i c2 Gs); [apply rinv_turn, HI|apply no_reset_turn; assumption|apply lock_turn; assumption|exact H2|exact H3]. }
    destruct (Nat.eq_dec j i) as [->|Hn].
    2:{ apply (K c Hi'). unfold turns. etransitivity; [|exact Ht]. unfold todo. destruct (rc_pc c); try lia.
        destruct (is_open (rw_open w) fd) eqn:Eo; [rewrite (opens_grow w j a fd Eo); lia|].
        destruct (is_open (rw_open (rturn st (j, a) w)) fd); lia. }
    apply (K _ Hi'). clear K IH. pose proof HI as (L & LM & _ & HC & HL & _). destruct (calls_nth w i c L Hi) as (ad & n & Hr).
    destruct (HR i ad n Hr) as (Hn31 & Ha & Hb).
    destruct (HC i ad n c Hr Hi) as (Eb & En & Hn0 & Hc0 & Hp). destruct HL as (Hlk & _). destruct Ga as (Go & k & Ek & Hk).
    assert (G : todo (rturn st (i, a) w) (fst (fst (fst (fst (rstep st a c (rw_mem w) (rw_lock w) (rw_open w) (rw_pos w)))))) <= Z.max 0 (todo w c - 1)).
    2:{ unfold turns. lia. }
    unfold rturn. cbn [fst snd]. rewrite Hi. destruct c as [b p n0 count]. unfold pc_ok, todo in *. cbn [rc_pc rc_n rc_count rc_buf] in *.
    unfold rstep. cbn [rc_pc rc_n rc_count rc_buf]. assert (Elk : (rw_lock w =? -1) = false) by (apply Z.eqb_neq; exact Hl).
    destruct p as [| |f| | | | |f|v|e]; unfold at_; cbn [fst rc_pc rc_n rc_count rc_buf rw_open].
    + rewrite Elk. lia.
    + destruct (an_open a); [|congruence]. cbn [fst rc_pc rc_n]. lia.
    + lia.
    + lia.
    + rewrite Elk. lia.
    + destruct (Z.ltb_spec 0 n0); lia.
    + destruct Hlk as [Hlk|Hlk]; [congruence|]. apply is_open_in in Hlk. rewrite Hlk. lia.
    + destruct (is_open (rw_open w) f) eqn:Eo; [|cbn [fst rc_pc rc_n]; lia]. rewrite Ek.
      set (r := Z.max 0 (Z.min k n0)). assert (1 <= r <= n0) by lia.
      unfold put. rewrite zlen_ztab by lia.
      replace (0 <=? b + count) with true by (symmetry; apply Z.leb_le; lia).
      replace (b + count + r <=? zlen (rw_mem w)) with true by (symmetry; apply Z.leb_le; lia). cbn [andb].
      unfold i32.
      replace (-2147483648 <=? count + r) with true by (symmetry; apply Z.leb_le; lia).
      replace (count + r <? 2147483648) with true by (symmetry; apply Z.ltb_lt; lia).
      replace (-2147483648 <=? n0 - r) with true by (symmetry; apply Z.leb_le; lia).
      replace (n0 - r <? 2147483648) with true by (symmetry; apply Z.ltb_lt; lia).
      cbn [bind ret andb fst rc_pc rc_n]. lia.
    + destruct Hp as (_ & ->). lia.
    + contradiction.
Qed.
End Inv.
