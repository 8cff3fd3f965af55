(** Proofs about calls that interrupt each other (Signals.v). *)
From Verif Require Import CSem ZList Kem Conc ConcKem Random ConcRandom ConcRandomProofs ConcLib ConcLibProofs Signals.

(** A call that has left the loop that opens the device. *)
Definition past (p : rpc) : Prop := match p with PWhile | PLock | PRead _ | PRet _ => True | _ => False end.
(** [l]: the calls in progress, the innermost first.  If one of them is past the loop then lock
    is a descriptor and the calls that interrupted it have not begun to open the device. *)
Definition nest (r : rworld) (l : list nat) : Prop :=
  (forall pre i post c, l = pre ++ i :: post -> nth_error (rw_calls r) i = Some c -> past (rc_pc c) ->
     rw_lock r <> -1 /\ forall j d, In j pre -> nth_error (rw_calls r) j = Some d -> rc_pc d = PTest \/ past (rc_pc d)) /\
  (forall i c fd, In i l -> nth_error (rw_calls r) i = Some c -> rc_pc c = PRead fd -> is_open (rw_open r) fd = true).
(** What the innermost call needs at most to return when system calls succeed. *)
Definition left_ (r : rworld) (c : rcall) : Z :=
  3 * rc_n c + match rc_pc c with
  | PTest => 6 | POpen => 5 | PStore fd => if fd =? -1 then 8 else 4
  | PDelay => if rw_lock r =? -1 then 7 else 3
  | PAgain => if rw_lock r =? -1 then 6 else 2
  | PWhile => 1 | PLock => 0 | PRead _ => -1 | PRet _ | PFault _ => 0
  end.

Section Rng.
Variables (st : Z -> Z) (stk : list Z) (pos0 : Z) (rqs : list (Z * Z)).
Hypothesis HR : forall i a n, nth_error rqs i = Some (a, n) -> 0 <= n < 2147483648 /\ 0 <= a /\ a + n <= zlen stk.
Hypothesis HD : forall i j a n b m, i <> j -> nth_error rqs i = Some (a, n) -> nth_error rqs j = Some (b, m) -> a + n <= b \/ b + m <= a.
Notation inv := (rinv st stk pos0 rqs).

Lemma turn_lock r i a c : nth_error (rw_calls r) i = Some c ->
  rw_lock (rturn st (i, a) r) = match rc_pc c with PStore fd => fd | _ => rw_lock r end.
Proof.
  intros Hc. unfold rturn. cbn [fst snd]. rewrite Hc. unfold rstep. destruct c as [b p n0 count]. cbn [rc_pc rc_n rc_count rc_buf].
  destruct p as [| |f| | | | |f|v|e]; cbn [rw_lock]; try reflexivity.
  - destruct (an_open a); reflexivity.
  - destruct (if is_open (rw_open r) f then an_read a else RErr); [reflexivity|].
    match goal with |- context [match ?m with Ok _ _ => _ | Err _ => _ end] => destruct m as [[[x y] z] t|e] end; reflexivity.
Qed.

(** How the point of a call changes. *)
Lemma turn_pc a c mem lock fds pos :
  let q := rc_pc (fst (fst (fst (fst (rstep st a c mem lock fds pos))))) in
  match rc_pc c with
  | PTest | PAgain => q = if lock =? -1 then POpen else PWhile
  | POpen => exists fd, q = PStore fd
  | PStore _ => q = PDelay
  | PDelay => q = PAgain
  | PWhile => q = PLock \/ q = PRet 0
  | PLock => q = PRead lock
  | PRead _ => q = PWhile \/ q = PLock \/ exists e, q = PFault e
  | PRet v => q = PRet v
  | PFault e => q = PFault e
  end.
Proof.
  cbv zeta. unfold rstep. destruct c as [b p n0 count]. cbn [rc_pc rc_n rc_count rc_buf]. destruct p as [| |f| | | | |f|v|e]; unfold at_; cbn [fst rc_pc]; auto.
  - destruct (an_open a); cbn [fst rc_pc]; eauto.
  - destruct (0 <? n0); auto.
  - destruct (if is_open fds f then an_read a else RErr); [auto|].
    match goal with |- context [match ?m with Ok _ _ => _ | Err _ => _ end] => destruct m as [[[x y] z] t|e] end; cbn; eauto.
Qed.

Lemma nest_turn r i l a : inv r -> NoDup (i :: l) -> nest r (i :: l) -> nest (rturn st (i, a) r) (i :: l).
Proof.
  intros HI ND (N1 & N2). assert (HI' : inv (rturn st (i, a) r)) by (apply rinv_turn; assumption).
  assert (NF : forall j d, nth_error (rw_calls (rturn st (i, a) r)) j = Some d -> pc_ok d).
  { intros j d Hd. destruct HI' as (L' & _ & _ & HC & _). destruct (calls_nth rqs _ j d L' Hd) as (b & n & Hb). apply (HC j b n d Hb Hd). }
  destruct (nth_error (rw_calls r) i) as [c|] eqn:Ec.
  2:{ unfold rturn. cbn [fst]. rewrite Ec. split; assumption. }
  pose proof (nth_turn st r i a) as T. pose proof (turn_lock r i a c Ec) as TL. pose proof (T i) as Ti. rewrite Ec in Ti. destruct (Nat.eq_dec i i); [|congruence].
  pose proof (turn_pc a c (rw_mem r) (rw_lock r) (rw_open r) (rw_pos r)) as TP. cbv zeta in TP. specialize (NF i _ Ti).
  set (c' := fst (fst (fst (fst (rstep st a c (rw_mem r) (rw_lock r) (rw_open r) (rw_pos r)))))) in *.
  assert (Oth : forall j, j <> i -> nth_error (rw_calls (rturn st (i, a) r)) j = nth_error (rw_calls r) j).
  { intros j Hj. rewrite T. destruct (nth_error (rw_calls r) j); [|reflexivity]. destruct (Nat.eq_dec i j); [congruence|reflexivity]. }
  (* below: a call past the loop *)
  assert (Below : forall pre k post d, l = pre ++ k :: post -> nth_error (rw_calls r) k = Some d -> past (rc_pc d) ->
    rw_lock r <> -1 /\ (rc_pc c = PTest \/ past (rc_pc c)) /\ forall j e, In j pre -> nth_error (rw_calls r) j = Some e -> rc_pc e = PTest \/ past (rc_pc e)).
  { intros pre k post d El Hd Hp. destruct (N1 (i :: pre) k post d) as (A & B); [rewrite El; reflexivity|exact Hd|exact Hp|].
    split; [exact A|]. split; [apply (B i c); [left; reflexivity|exact Ec]|]. intros j e0 Hj. apply B. right; exact Hj. }
  assert (Own : past (rc_pc c) -> rw_lock r <> -1) by (intros Hp; apply (N1 [] i l c eq_refl Ec Hp)).
  assert (Keep : (rc_pc c = PTest \/ past (rc_pc c)) -> rw_lock r <> -1 -> rw_lock (rturn st (i, a) r) <> -1 /\ (past (rc_pc c'))).
  { intros Hp Hl. rewrite TL. assert ((rw_lock r =? -1) = false) as El by (apply Z.eqb_neq; exact Hl). unfold pc_ok in NF.
    destruct (rc_pc c); destruct Hp as [Hp|Hp]; try discriminate; try contradiction; (split; [exact Hl|]).
    - rewrite El in TP. rewrite TP. exact I.
    - destruct TP as [-> | ->]; exact I.
    - rewrite TP; exact I.
    - destruct TP as [-> |[-> |(e' & E)]]; try exact I. rewrite E in NF. contradiction.
    - rewrite TP; exact I. }
  split.
  - intros pre k post d El Hd Hp. destruct pre as [|x pre].
    + cbn [app] in El. injection El as <- _. rewrite Ti in Hd. injection Hd as <-. split; [|intros j e0 []].
      destruct (rc_pc c) eqn:Ep; rewrite ?TP in Hp; try contradiction; try (rewrite TL; apply Own; exact I).
      * rewrite TL. destruct (Z.eqb_spec (rw_lock r) (-1)); [contradiction|assumption].
      * destruct TP as (fd & E). rewrite E in Hp. contradiction.
      * rewrite TL. destruct (Z.eqb_spec (rw_lock r) (-1)); [contradiction|assumption].
    + cbn [app] in El. injection El as <- El. assert (Hk : k <> i).
      { intros ->. apply NoDup_cons_iff in ND. destruct ND as (ND & _). apply ND. rewrite El. apply in_elt. }
      rewrite (Oth k Hk) in Hd. destruct (Below pre k post d El Hd Hp) as (B1 & B2 & B3). destruct (Keep B2 B1) as (K1 & K2).
      split; [exact K1|]. intros j e0 Hj He. destruct (Nat.eq_dec j i) as [->|Hn].
      * rewrite Ti in He. injection He as <-. right; exact K2.
      * rewrite (Oth j Hn) in He. destruct Hj as [Hj|Hj]; [congruence|]. apply (B3 j e0 Hj He).
  - intros k d fd Hk Hd Ep. destruct (Nat.eq_dec k i) as [->|Hn].
    + rewrite Ti in Hd. injection Hd as <-. apply opens_grow.
      destruct (rc_pc c) eqn:Epc; rewrite ?TP in Ep; try discriminate.
      * destruct (rw_lock r =? -1); discriminate.
      * destruct TP as (f & E). rewrite E in Ep. discriminate.
      * destruct (rw_lock r =? -1); discriminate.
      * destruct TP as [E|E]; rewrite E in Ep; discriminate.
      * injection Ep as <-. pose proof HI as (_ & _ & _ & _ & (Hl & _) & _). destruct Hl as [Hl|Hl]; [exfalso; apply Own; [exact I|exact Hl]|]. now apply is_open_in.
      * destruct TP as [E|[E|(f & E)]]; rewrite E in Ep; discriminate.
    + rewrite (Oth k Hn) in Hd. apply opens_grow. apply (N2 k d fd Hk Hd Ep).
Qed.

Lemma left_nonneg r c a n : call_ok c a n -> 0 <= left_ r c.
Proof.
  intros (_ & _ & H & _ & Hp). unfold left_, pc_ok in *. destruct (rc_pc c); try lia; [destruct (fd =? -1)| | ]; try (destruct (rw_lock r =? -1)); lia.
Qed.
(** The innermost call comes nearer to its return with each action. *)
Lemma left_turn r i l a c : good_answer a -> inv r -> nest r (i :: l) -> nth_error (rw_calls r) i = Some c -> (forall v, rc_pc c <> PRet v) ->
  exists c', nth_error (rw_calls (rturn st (i, a) r)) i = Some c' /\ left_ (rturn st (i, a) r) c' < left_ r c.
Proof.
  intros (Go & k & Ek & Hk) HI (N1 & N2) Hc Hret. pose proof (nth_turn st r i a i) as Ti. rewrite Hc in Ti. destruct (Nat.eq_dec i i); [|congruence].
  eexists. split; [exact Ti|]. assert (Own : past (rc_pc c) -> rw_lock r <> -1) by (intros Hp; apply (N1 [] i l c eq_refl Hc Hp)).
  pose proof (N2 i c) as Op. specialize (fun fd => Op fd (or_introl eq_refl) Hc).
  pose proof HI as (L & LM & _ & HC & _). destruct (calls_nth rqs r i c L Hc) as (ad & n & Hr). destruct (HR i ad n Hr) as (Hn31 & Ha & Hb).
  destruct (HC i ad n c Hr Hc) as (Eb & En & Hn0 & Hc0 & Hp). pose proof (turn_lock r i a c Hc) as TL. unfold left_. rewrite TL. clear TL Ti.
  destruct c as [b p n0 count]. unfold pc_ok in *. cbn [rc_pc rc_n rc_count rc_buf] in *. unfold rstep. cbn [rc_pc rc_n rc_count rc_buf].
  destruct p as [| |f| | | | |f|v|e0]; unfold at_; cbn [fst rc_pc rc_n rc_count rc_buf].
  - destruct (rw_lock r =? -1); lia.
  - destruct (an_open a) as [f|]; [|congruence]. cbn [fst rc_pc rc_n]. destruct (Z.eqb_spec (Z.of_nat f) (-1)); lia.
  - destruct (f =? -1); lia.
  - destruct (rw_lock r =? -1); lia.
  - destruct (rw_lock r =? -1); lia.
  - destruct (Z.ltb_spec 0 n0); lia.
  - lia.
  - rewrite (Op f eq_refl), Ek.
    set (q := Z.max 0 (Z.min k n0)). assert (1 <= q <= n0) by lia.
    unfold put. rewrite zlen_ztab by lia.
    replace (0 <=? b + count) with true by (symmetry; apply Z.leb_le; lia).
    replace (b + count + q <=? zlen (rw_mem r)) with true by (symmetry; apply Z.leb_le; lia). cbn [andb].
    unfold i32.
    replace (-2147483648 <=? count + q) with true by (symmetry; apply Z.leb_le; lia).
    replace (count + q <? 2147483648) with true by (symmetry; apply Z.ltb_lt; lia).
    replace (-2147483648 <=? n0 - q) with true by (symmetry; apply Z.leb_le; lia).
    replace (n0 - q <? 2147483648) with true by (symmetry; apply Z.ltb_lt; lia).
    cbn [bind ret andb fst rc_pc rc_n]. lia.
  - destruct (Hret v eq_refl).
  - contradiction.
Qed.
End Rng.

Lemma xturn_rng st rqs ia w : x_rng (xturn st rqs ia w) = x_rng w \/ x_rng (xturn st rqs ia w) = rturn st ia (x_rng w).
Proof.
  unfold xturn. destruct (nth_error (x_thr w) (fst ia)) as [[p k0|k0|p]|]; auto.
  - destruct p; auto; destruct (step _ _ _) as [[? ?] ?]; auto.
  - destruct (nth_error (rw_calls (x_rng w)) (fst ia)) as [c0|]; auto. destruct (nth_error rqs (fst ia)) as [[b n]|]; auto. destruct (rc_pc c0); auto.
  - destruct (step _ _ _) as [[? ?] ?]; auto.
Qed.
