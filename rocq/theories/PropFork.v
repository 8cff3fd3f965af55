(** Property C50: processes that fork. *)
From Verif Require Import CSem Params FrodoSpec Macrify Random PropMatrix Kem KemProofs KemWp FrodoFacts PropKem PropKem2 ConcRandom ConcRandomProofs PropConcRandom
  Process PropProcess PropConcHist Fork.

(** ** The programs of the processes *)
(** A process of a family that began with one process about to do [prog] can have done [d] (it or
    its ancestors before they made it) and have [r] left to do. *)
Inductive follows : list faction -> list action -> list faction -> Prop :=
| f_here l : follows l [] l
| f_call a l d r : follows l d r -> follows (FCall a :: l) (a :: d) r
| f_parent c l d r : follows l d r -> follows (FFork c :: l) d r
| f_child c l d r : follows c d r -> follows (FFork c :: l) d r
| f_close fd l d r : follows l d r -> follows (FClose fd :: l) d r
| f_open fd l d r : follows l d r -> follows (FOther fd :: l) d r.
(** Whatever random bytes they get, the actions of every process are in order; the build and the
    parameters are usable, the requests fit into an int, and the device delivers bytes. *)
Definition family (C : config) (mem : list Z) (prog : list faction) (st : Z -> Z) : Prop :=
  let P := cP C in
  valid P /\ build_ok C /\ 2 * pCB P + 16 < 2 ^ 31 /\ (forall i, 0 <= st i < 256) /\
  (forall l r R, follows prog (map snd l) r -> sized P R l -> in_order P (cGen C) R l mem).
(** No process opens another file. *)
Definition opens_nothing (prog : list faction) : Prop := forall d fd l, ~ follows prog d (FOther fd :: l).
Definition closes_nothing (prog : list faction) : Prop := forall d fd l, ~ follows prog d (FClose fd :: l).
(** Process i did action number s, which is a; it did not inherit it. *)
Definition own (w : fworld) (i k s : nat) (a : action) : Prop :=
  exists p, nth_error (fw_procs w) i = Some p /\ (f_inh p <= k)%nat /\ nth_error (f_done p) k = Some (s, a).

Lemma follows_call prog d a l : follows prog d (FCall a :: l) -> follows prog (d ++ [a]) l.
Proof.
  intros H. remember (FCall a :: l) as r eqn:E. induction H; subst; cbn [app]; try (constructor; auto; fail).
  apply f_call, f_here.
Qed.
Lemma follows_step prog d r x l : follows prog d r -> r = x :: l -> (forall a, x <> FCall a) -> follows prog d l.
Proof.
  intros H E N. induction H; subst; try (constructor; auto; fail).
  destruct x; [congruence| | |]; constructor; constructor.
Qed.
Lemma follows_fork prog d c l : follows prog d (FFork c :: l) -> follows prog d c.
Proof.
  intros H. remember (FFork c :: l) as r eqn:E. induction H; subst; try (constructor; auto; fail).
  apply f_child, f_here.
Qed.

(** ** One action *)
Lemma asks_takes P a k : asks P a = Some k -> takes P a = k.
Proof. destruct a; cbn; intros E; inversion E; reflexivity. Qed.
Lemma asks_none P a : asks P a = None -> takes P a = 0.
Proof. destruct a; cbn; intros E; inversion E; reflexivity. Qed.
Lemma perform_effect C a r mem : valid (cP C) -> build_ok C -> fits (cP C) mem a -> bytestr (takes (cP C) a) r ->
  returns (perform C a r 0 mem) (effect_of (cP C) (cGen C) r a mem, 0).
Proof.
  intros V Hb Hf (Lr & Br). set (P := cP C) in *.
  destruct (sizes C V) as (HN & HD & HB & HCB & _). fold P in HN, HD, HB, HCB.
  destruct a as [pk sk|ct ss pk|ss ct sk|a x]; cbn [fits takes perform effect_of] in *.
  - destruct Hf as (F1 & F2 & F3). assert (E3 := cut3 r (pCB P) ltac:(lia) Lr).
    pose proof (C05_keypair C (fun _ _ => ret (r, 0)) 0 mem pk sk (zslice r 0 (pCB P)) (zslice r (pCB P) (pCB P)) (zslice r (2 * pCB P) 16) V) as H. fold P in H.
    rewrite E3 in H. specialize (H ltac:(split; [rewrite zlen_zslice; lia|apply inrange_zslice, Br]) ltac:(split; [rewrite zlen_zslice; lia|apply inrange_zslice, Br]) ltac:(split; [rewrite zlen_zslice; lia|apply inrange_zslice, Br])
      ltac:(exists []; reflexivity) F1 F2 F3).
    destruct (KeyGen P (cGen C) _ _ _) as [PK SK]. destruct H as (l & H). eapply bind_ok; [exact H|]. exists []; reflexivity.
  - destruct Hf as (F1 & F2 & F3 & F4 & F5).
    pose proof (C05_enc C (fun _ _ => ret (r, 0)) 0 mem ct ss pk (zslice mem pk (pkBytes P)) r V Hb (conj Lr Br) ltac:(exists []; reflexivity) (conj F3 eq_refl) F4 F1 F2 F5) as H. fold P in H.
    destruct (Encaps P (cGen C) _ _) as [CT SS]. destruct H as (l & H). eapply bind_ok; [exact H|]. exists []; reflexivity.
  - destruct Hf as (F1 & F2 & F3 & F4 & F5 & F6).
    destruct (C05_dec C mem ss ct sk (zslice mem ct (ctBytes P)) (zslice mem sk (skBytes P)) V Hb (conj F3 eq_refl) F5 F6 (conj F2 eq_refl) F4 F1) as (l & H). fold P in H.
    eapply bind_ok; [exact H|]. exists []; reflexivity.
  - destruct Hf as (F1 & F2). eapply bind_ok; [apply wp_returns, wp_put; [lia|lia|reflexivity]|]. exists []; reflexivity.
Qed.
Lemma after_all_snoc P g R l s a : forall mem, after_all P g R (l ++ [(s, a)]) mem = effect_of P g (R s) a (after_all P g R l mem).
Proof. induction l as [|[s' a'] l IH]; intros mem; [reflexivity|]. cbn [app after_all]. apply IH. Qed.
Lemma in_order_snoc P g R l s a : forall mem, in_order P g R (l ++ [(s, a)]) mem -> fits P (after_all P g R l mem) a.
Proof. induction l as [|[s' a'] l IH]; intros mem H; cbn [app in_order after_all] in *; [apply H|]. apply IH, H. Qed.

(** ** Lists of processes *)
Lemma nth_setp_eq l i p d : nth_error l i = Some d -> nth_error (set_proc l i p) i = Some p.
Proof. revert i; induction l; intros [|i] H; cbn in *; try discriminate; auto. Qed.
Lemma nth_setp_ne l i j p : i <> j -> nth_error (set_proc l i p) j = nth_error l j.
Proof. revert i j; induction l; intros [|i] [|j] H; cbn; auto; try congruence. Qed.
Lemma length_setp l i p : length (set_proc l i p) = length l.
Proof. revert i; induction l; intros [|i]; cbn; auto. Qed.
Lemma nth_setp l i j p d q : nth_error l i = Some q -> nth_error (set_proc l i p) j = Some d ->
  (i = j /\ d = p) \/ (i <> j /\ nth_error l j = Some d).
Proof.
  intros E H. destruct (Nat.eq_dec i j) as [<-|Hn].
  - rewrite (nth_setp_eq _ _ _ _ E) in H. injection H; auto.
  - rewrite nth_setp_ne in H by exact Hn. auto.
Qed.
Lemma nth_snoc {A} (l : list A) x j d : nth_error (l ++ [x]) j = Some d -> nth_error l j = Some d \/ (j = length l /\ d = x).
Proof.
  intros H. destruct (Nat.lt_ge_cases j (length l)) as [Hj|Hj].
  - rewrite nth_error_app1 in H by exact Hj. auto.
  - rewrite nth_error_app2 in H by exact Hj. right. destruct (j - length l)%nat as [|k] eqn:E; cbn in H; [|destruct k; discriminate].
    injection H as <-. split; [lia|reflexivity].
Qed.

(** ** Numbers of actions *)
Definition num (p : fproc) : option nat := match f_now p with NDraw s _ _ _ => Some s | _ => None end.
Definition numbers (ps : list fproc) : Prop :=
  (forall i j p q s b, nth_error ps i = Some p -> nth_error ps j = Some q -> num p = Some s -> ~ In (s, b) (f_done q)) /\
  (forall i j p q s, i <> j -> nth_error ps i = Some p -> nth_error ps j = Some q -> num p = Some s -> num q <> Some s) /\
  (forall i j p q k k' s a b, nth_error ps i = Some p -> nth_error ps j = Some q -> (f_inh p <= k)%nat -> (f_inh q <= k')%nat ->
     nth_error (f_done p) k = Some (s, a) -> nth_error (f_done q) k' = Some (s, b) -> i = j /\ k = k') /\
  (forall i p, nth_error ps i = Some p -> (f_inh p <= length (f_done p))%nat /\
     (i = O /\ f_inh p = O \/ exists j q, (j < i)%nat /\ nth_error ps j = Some q /\ (f_inh p <= length (f_done q))%nat /\
        firstn (f_inh p) (f_done p) = firstn (f_inh p) (f_done q))).
Definition available (ps : list fproc) (i s : nat) : Prop :=
  forall j q, nth_error ps j = Some q -> (forall b, ~ In (s, b) (f_done q)) /\ (j <> i -> num q <> Some s).
Lemma numbers_set ps i p p' : numbers ps -> nth_error ps i = Some p -> f_inh p' = f_inh p ->
  (forall s, num p' = Some s -> available ps i s) ->
  (f_done p' = f_done p \/ (num p' = None /\ exists s a, f_done p' = f_done p ++ [(s, a)] /\ available ps i s)) ->
  numbers (set_proc ps i p').
Proof.
  intros (D1 & D2 & D3 & D4) Hi EI HN HD.
  assert (IN : forall s b, In (s, b) (f_done p') -> In (s, b) (f_done p) \/ (num p' = None /\ available ps i s)).
  { intros s b H. destruct HD as [HD|(E & s' & a & HD & A)]; rewrite HD in H; [auto|]. apply in_app_or in H. destruct H as [H|[H|[]]]; [auto|]. injection H as <- <-. auto. }
  assert (NTH : forall k s b, nth_error (f_done p') k = Some (s, b) -> nth_error (f_done p) k = Some (s, b) \/ (k = length (f_done p) /\ available ps i s)).
  { intros k s b H. destruct HD as [HD|(E & s' & a & HD & A)]; rewrite HD in H; [auto|]. apply nth_snoc in H. destruct H as [H|(-> & H)]; [auto|]. injection H as <- <-. auto. }
  split; [|split; [|split]].
  - intros i1 j q r s b Hq Hr E H. destruct (nth_setp _ _ _ _ _ _ Hi Hq) as [(<- & ->)|(N1 & Hq')]; destruct (nth_setp _ _ _ _ _ _ Hi Hr) as [(<- & ->)|(N2 & Hr')].
    + destruct (IN s b H) as [H'|(E' & _)]; [|congruence]. destruct (HN s E i p Hi) as (A & _). exact (A b H').
    + destruct (HN s E j r Hr') as (A & _). exact (A b H).
    + destruct (IN s b H) as [H'|(_ & A)]; [exact (D1 i1 i q p s b Hq' Hi E H')|]. destruct (A i1 q Hq') as (_ & A'). exact (A' ltac:(congruence) E).
    + exact (D1 i1 j q r s b Hq' Hr' E H).
  - intros i1 j q r s Hij Hq Hr E H. destruct (nth_setp _ _ _ _ _ _ Hi Hq) as [(<- & ->)|(N1 & Hq')]; destruct (nth_setp _ _ _ _ _ _ Hi Hr) as [(<- & ->)|(N2 & Hr')].
    + congruence.
    + destruct (HN s E j r Hr') as (_ & A). exact (A ltac:(congruence) H).
    + destruct (HN s H i1 q Hq') as (_ & A). exact (A ltac:(congruence) E).
    + exact (D2 i1 j q r s Hij Hq' Hr' E H).
  - intros i1 j q r k k' s a b Hq Hr K1 K2 E H.
    destruct (nth_setp _ _ _ _ _ _ Hi Hq) as [(<- & ->)|(N1 & Hq')]; destruct (nth_setp _ _ _ _ _ _ Hi Hr) as [(<- & ->)|(N2 & Hr')].
    + rewrite EI in K1, K2. destruct (NTH _ _ _ E) as [E'|(-> & A)]; destruct (NTH _ _ _ H) as [H'|(-> & A')].
      * exact (D3 i i p p k k' s a b Hi Hi K1 K2 E' H').
      * destruct (A' i p Hi) as (X & _). destruct (X a). exact (nth_error_In _ _ E').
      * destruct (A i p Hi) as (X & _). destruct (X b). exact (nth_error_In _ _ H').
      * auto.
    + rewrite EI in K1. destruct (NTH _ _ _ E) as [E'|(-> & A)]; [exact (D3 i j p r k k' s a b Hi Hr' K1 K2 E' H)|].
      destruct (A j r Hr') as (X & _). destruct (X b). exact (nth_error_In _ _ H).
    + rewrite EI in K2. destruct (NTH _ _ _ H) as [H'|(-> & A)]; [exact (D3 i1 i q p k k' s a b Hq' Hi K1 K2 E H')|].
      destruct (A i1 q Hq') as (X & _). destruct (X a). exact (nth_error_In _ _ E).
    + exact (D3 i1 j q r k k' s a b Hq' Hr' K1 K2 E H).
  - assert (PRE : forall n, (n <= length (f_done p))%nat -> (n <= length (f_done p'))%nat /\ firstn n (f_done p') = firstn n (f_done p)).
    { intros n Hn. destruct HD as [->|(_ & s & a & -> & _)]; [auto|]. rewrite app_length. split; [lia|].
      rewrite firstn_app. replace (n - length (f_done p))%nat with O by lia. cbn [firstn]. apply app_nil_r. }
    assert (GO : forall j q, nth_error ps j = Some q -> exists q', nth_error (set_proc ps i p') j = Some q' /\
      forall n, (n <= length (f_done q))%nat -> (n <= length (f_done q'))%nat /\ firstn n (f_done q') = firstn n (f_done q)).
    { intros j q Hj. destruct (Nat.eq_dec i j) as [<-|Hn].
      - rewrite Hi in Hj. injection Hj as <-. exists p'. split; [eapply nth_setp_eq; eauto|exact PRE].
      - exists q. split; [rewrite nth_setp_ne by exact Hn; exact Hj|auto]. }
    intros j q Hj. destruct (nth_setp _ _ _ _ _ _ Hi Hj) as [(<- & ->)|(N1 & Hj')].
    + destruct (D4 i p Hi) as (L & [(-> & E)|(j' & q' & Hlt & Hq' & L' & E)]).
      * rewrite EI. destruct (PRE _ L) as (L1 & _). split; [exact L1|]. auto.
      * rewrite EI. destruct (PRE _ L) as (L1 & F1). split; [exact L1|]. right. destruct (GO j' q' Hq') as (q2 & Hq2 & G).
        destruct (G _ L') as (L2 & F2). exists j', q2. rewrite F1, F2. auto.
    + destruct (D4 j q Hj') as (L & [(-> & E)|(j' & q' & Hlt & Hq' & L' & E)]); (split; [exact L|]); [auto|].
      right. destruct (GO j' q' Hq') as (q2 & Hq2 & G). destruct (G _ L') as (L2 & F2). exists j', q2. rewrite F2. auto.
Qed.
Lemma numbers_new ps i p child : numbers ps -> nth_error ps i = Some p -> f_done child = f_done p -> f_inh child = length (f_done p) -> num child = None ->
  numbers (ps ++ [child]).
Proof.
  intros (D1 & D2 & D3 & D4) Hi ED EI EN. split; [|split; [|split]].
  - intros i1 j q r s b Hq Hr E H. destruct (nth_snoc _ _ _ _ Hq) as [Hq'|(-> & ->)]; [|congruence].
    destruct (nth_snoc _ _ _ _ Hr) as [Hr'|(-> & ->)]; [exact (D1 i1 j q r s b Hq' Hr' E H)|]. rewrite ED in H. exact (D1 i1 i q p s b Hq' Hi E H).
  - intros i1 j q r s Hij Hq Hr E H. destruct (nth_snoc _ _ _ _ Hq) as [Hq'|(-> & ->)]; [|congruence].
    destruct (nth_snoc _ _ _ _ Hr) as [Hr'|(-> & ->)]; [|congruence]. exact (D2 i1 j q r s Hij Hq' Hr' E H).
  - intros i1 j q r k k' s a b Hq Hr K1 K2 E H.
    assert (LEN : forall (q : fproc) k x, nth_error (f_done q) k = Some x -> (k < length (f_done q))%nat) by (intros q0 k0 x Hx; apply nth_error_Some; congruence).
    destruct (nth_snoc _ _ _ _ Hq) as [Hq'|(-> & ->)]; [|apply LEN in E; rewrite ED in E; lia].
    destruct (nth_snoc _ _ _ _ Hr) as [Hr'|(-> & ->)]; [|apply LEN in H; rewrite ED in H; lia]. exact (D3 i1 j q r k k' s a b Hq' Hr' K1 K2 E H).
  - intros j q Hj. destruct (nth_snoc _ _ _ _ Hj) as [Hj'|(-> & ->)].
    + destruct (D4 j q Hj') as (L & [H|(j' & q' & Hlt & Hq' & L' & E)]); (split; [exact L|]); [auto|]. right. exists j', q'.
      split; [exact Hlt|]. split; [|auto]. rewrite nth_error_app1; [exact Hq'|]. apply nth_error_Some. congruence.
    + rewrite EI, ED. split; [lia|]. right. exists i, p. assert (i < length ps)%nat by (apply nth_error_Some; congruence).
      split; [lia|]. split; [rewrite nth_error_app1 by lia; exact Hi|]. split; [lia|reflexivity].
Qed.

(** ** The invariant *)
Section Family.
Variables (C : config) (st file : Z -> Z) (mem0 : list Z) (pos0 : Z) (prog : list faction).
Let P := cP C.
Hypothesis HF : family C mem0 prog st.
Hypothesis HO : opens_nothing prog.

Definition Rof (src : nat -> Z -> Z) (cnt : nat -> Z) (s : nat) : list Z := ztab (cnt s) (fun k => st (src s k)).
Definition now_ok (src : nat -> Z -> Z) (cnt : nat -> Z) (n : nat) (p : fproc) : Prop :=
  match f_now p with
  | NIdle => follows prog (map snd (f_done p)) (f_left p)
  | NDraw s a c buf =>
      follows prog (map snd (f_done p)) (FCall a :: f_left p) /\ (s < n)%nat /\ call_ok c 0 (takes P a) /\ zlen buf = takes P a /\
      cnt s = rc_count c /\ forall k, 0 <= k < rc_count c -> znth buf k = st (src s k)
  | NDead _ => False
  end.
Definition proc_ok (src : nat -> Z -> Z) (cnt : nat -> Z) (n : nat) (p : fproc) : Prop :=
  f_other p = [] /\ f_mem p = after_all P (cGen C) (Rof src cnt) (f_done p) mem0 /\ f_codes p = repeat 0 (length (f_done p)) /\
  (forall s a, In (s, a) (f_done p) -> (s < n)%nat /\ cnt s = takes P a) /\ now_ok src cnt n p.
Definition stream_ok (src : nat -> Z -> Z) (cnt : nat -> Z) (n : nat) (pos : Z) : Prop :=
  pos0 <= pos /\
  (forall s k, 0 <= k < cnt s -> pos0 <= src s k < pos) /\
  (forall s k k', 0 <= k < k' -> k' < cnt s -> src s k < src s k') /\
  (forall s s' k k', s <> s' -> 0 <= k < cnt s -> 0 <= k' < cnt s' -> src s k <> src s' k') /\
  (forall s, (n <= s)%nat -> cnt s = 0).
Definition finv (w : fworld) (src : nat -> Z -> Z) (cnt : nat -> Z) : Prop :=
  stream_ok src cnt (fw_count w) (fw_pos w) /\ numbers (fw_procs w) /\
  forall i p, nth_error (fw_procs w) i = Some p -> proc_ok src cnt (fw_count w) p.

Lemma takes_bounds a : 0 <= takes P a < 2 ^ 31.
Proof.
  destruct HF as (V & _ & Hs & _). fold P in V, Hs. destruct (sizes C V) as (HN & HD & HB & HCB & _ & _ & _ & _ & EMu & _). fold P in HN, HD, HB, HCB, EMu.
  pose proof (v_B8 P V). destruct a; cbn [takes]; lia.
Qed.
Lemma Rof_ext src cnt src' cnt' s : src s = src' s -> cnt s = cnt' s -> Rof src cnt s = Rof src' cnt' s.
Proof. intros E1 E2. unfold Rof. rewrite E1, E2. reflexivity. Qed.
Lemma proc_ok_ext src cnt src' cnt' n n' p : (n <= n')%nat ->
  (forall s, In s (map fst (f_done p)) \/ num p = Some s -> src s = src' s /\ cnt s = cnt' s) ->
  proc_ok src cnt n p -> proc_ok src' cnt' n' p.
Proof.
  intros Hn HE (O1 & O2 & O3 & O4 & O5).
  assert (ED : forall s a, In (s, a) (f_done p) -> src s = src' s /\ cnt s = cnt' s).
  { intros s a H. apply HE. left. apply in_map_iff. exists (s, a). auto. }
  split; [exact O1|]. split; [|split; [exact O3|split]].
  - rewrite O2. apply after_all_ext. intros s a H. destruct (ED s a H). apply Rof_ext; assumption.
  - intros s a H. destruct (O4 s a H) as (H1 & H2). destruct (ED s a H). split; [lia|congruence].
  - unfold now_ok in *. destruct (f_now p) as [|s a c buf|e] eqn:En; auto. destruct O5 as (Q1 & Q2 & Q3 & Q4 & Q5 & Q6).
    destruct (HE s ltac:(right; unfold num; rewrite En; reflexivity)) as (E1 & E2).
    split; [exact Q1|]. split; [lia|]. split; [exact Q3|]. split; [exact Q4|]. split; [congruence|]. rewrite <- E1. exact Q6.
Qed.
Lemma stream_ok_grow src cnt n n' pos : (n <= n')%nat -> stream_ok src cnt n pos -> stream_ok src cnt n' pos.
Proof. intros Hn (S1 & S2 & S3 & S4 & S5). repeat (split; [assumption|]). intros s Hs. apply S5. lia. Qed.
Lemma fresh_available w src cnt i : finv w src cnt -> available (fw_procs w) i (fw_count w).
Proof.
  intros (_ & _ & HP) j q Hj. destruct (HP j q Hj) as (_ & _ & _ & O4 & O5). split.
  - intros b H. destruct (O4 _ _ H). lia.
  - intros _ E. unfold num in E. unfold now_ok in O5. destruct (f_now q); try discriminate. injection E as ->. lia.
Qed.
Lemma drawn_available w src cnt i p s : finv w src cnt -> nth_error (fw_procs w) i = Some p -> num p = Some s -> available (fw_procs w) i s.
Proof.
  intros (_ & (D1 & D2 & _) & _) Hi E j q Hj. split; [intros b; exact (D1 i j p q s b Hi Hj E)|].
  intros Hn. apply (D2 i j p q s); auto.
Qed.
(** An action ends: number s, bytes R. *)
Lemma complete_ok src cnt n s a buf l p : (s < n)%nat -> proc_ok src cnt n p ->
  follows prog (map snd (f_done p)) (FCall a :: l) -> cnt s = takes P a -> buf = Rof src cnt s ->
  proc_ok src cnt n (complete C s a buf 0 l p) /\ f_done (complete C s a buf 0 l p) = f_done p ++ [(s, a)] /\
  num (complete C s a buf 0 l p) = None /\ f_inh (complete C s a buf 0 l p) = f_inh p /\
  f_left (complete C s a buf 0 l p) = l /\ f_now (complete C s a buf 0 l p) = NIdle /\ f_lock (complete C s a buf 0 l p) = f_lock p /\
  f_fds (complete C s a buf 0 l p) = f_fds p.
Proof.
  intros Hs (O1 & O2 & O3 & O4 & _) Hf Ec Eb. pose proof HF as (V & Hb & _ & Hst & Hord). fold P in V, Hord. clear HO.
  assert (BR : forall s a, cnt s = takes P a -> bytestr (takes P a) (Rof src cnt s)).
  { intros s' a' E. unfold Rof. rewrite E. split; [apply zlen_ztab; destruct (takes_bounds a'); lia|apply inrange_ztab; intros; apply Hst]. }
  assert (Hfits : fits P (f_mem p) a).
  { rewrite O2. apply (in_order_snoc P (cGen C) (Rof src cnt) (f_done p) s a). apply (Hord _ l).
    - rewrite map_app. cbn [map snd]. apply follows_call. exact Hf.
    - intros s' a' H. apply in_app_or in H. destruct H as [H|[H|[]]]; [|injection H as <- <-; auto]. apply BR, O4, H. }
  destruct (perform_effect C a buf (f_mem p) V Hb Hfits ltac:(rewrite Eb; apply BR; exact Ec)) as (t & E).
  unfold complete. rewrite E. cbn [f_done f_inh num f_now f_left f_lock f_fds]. split; [|auto 10].
  unfold proc_ok, now_ok. cbn [f_other f_mem f_done f_codes f_now f_left]. split; [exact O1|]. split; [|split; [|split]].
  - rewrite after_all_snoc, <- O2, <- Eb. reflexivity.
  - rewrite app_length, repeat_app, O3. reflexivity.
  - intros s' a' H. apply in_app_or in H. destruct H as [H|[H|[]]]; [auto|]. injection H as <- <-. auto.
  - rewrite map_app. cbn [map snd]. apply follows_call. exact Hf.
Qed.

(** Replacing process i. *)
Lemma finv_set w i p p' src cnt src' cnt' pos opos n : finv w src cnt -> nth_error (fw_procs w) i = Some p -> (fw_count w <= n)%nat ->
  stream_ok src' cnt' n pos -> proc_ok src' cnt' n p' -> f_inh p' = f_inh p ->
  (forall s, num p' = Some s -> available (fw_procs w) i s) ->
  (f_done p' = f_done p \/ (num p' = None /\ exists s a, f_done p' = f_done p ++ [(s, a)] /\ available (fw_procs w) i s)) ->
  (forall s, src s = src' s /\ cnt s = cnt' s \/ available (fw_procs w) i s) ->
  finv (mkfw (set_proc (fw_procs w) i p' ++ []) pos opos n) src' cnt'.
Proof.
  intros HI Hi Hn HS HP EI HN HD HE. destruct HI as (_ & NU & HA). rewrite app_nil_r. split; [exact HS|]. cbn [fw_procs fw_count]. split.
  - eapply numbers_set; eauto.
  - intros j q Hj. destruct (nth_setp _ _ _ _ _ _ Hi Hj) as [(<- & ->)|(Hij & Hj')]; [exact HP|].
    eapply proc_ok_ext; [exact Hn| |apply (HA j q Hj')]. intros s Hs. destruct (HE s) as [E|A]; [exact E|]. exfalso.
    destruct (A j q Hj') as (A1 & A2). destruct Hs as [Hs|Hs].
    + apply in_map_iff in Hs. destruct Hs as ([s' b] & E & H). cbn in E. subst s'. exact (A1 b H).
    + exact (A2 ltac:(congruence) Hs).
Qed.

Lemma rstep_cases (sr : Z -> Z) an c buf lock fds pos n : 0 <= n < 2 ^ 31 -> call_ok c 0 n -> zlen buf = n ->
  let '(c', buf', _, _, pos') := rstep sr an c buf lock fds pos in
  call_ok c' 0 n /\ zlen buf' = n /\ exists r, 0 <= r /\ rc_count c' = rc_count c + r /\ pos' = pos + r /\
    forall k, 0 <= k < rc_count c' -> znth buf' k = if k <? rc_count c then znth buf k else sr (pos + (k - rc_count c)).
Proof.
  intros Hn HC L. destruct c as [b pc m count]. destruct HC as (Eb & En & Hm & Hc & Hpc). cbn [rc_buf rc_n rc_count rc_pc] in *. subst b.
  assert (Q : forall pc' : rpc, pc_ok (mkc 0 pc' m count) -> call_ok (mkc 0 pc' m count) 0 n /\ zlen buf = n /\ exists r, 0 <= r /\ count = count + r /\ pos = pos + r /\
    forall k, 0 <= k < count -> znth buf k = if k <? count then znth buf k else sr (pos + (k - count))).
  { intros pc' Hpc'. split; [split; [reflexivity|cbn; auto]|]. split; [exact L|]. exists 0. split; [lia|]. split; [lia|]. split; [lia|]. intros k Hk. destruct (Z.ltb_spec k count); [reflexivity|lia]. }
  unfold rstep. cbn [rc_pc]. destruct pc as [| |fd| | | | |fd|v|e]; unfold at_; cbn [rc_buf rc_n rc_count rc_pc].
  - apply Q. destruct (lock =? -1); exact I.
  - destruct (an_open an); apply Q; exact I.
  - apply Q; exact I.
  - apply Q; exact I.
  - apply Q. destruct (lock =? -1); exact I.
  - apply Q. destruct (Z.ltb_spec 0 m); unfold pc_ok; cbn; [lia|]. split; [reflexivity|lia].
  - apply Q. exact Hpc.
  - unfold pc_ok in Hpc; cbn in Hpc.
    destruct (if is_open fds fd then an_read an else RErr) as [|k]; [apply Q; exact Hpc|].
    set (r := Z.max 0 (Z.min k m)). assert (Hr : 0 <= r <= m) by lia. unfold put. rewrite zlen_ztab by lia.
    replace (0 <=? 0 + count) with true by (symmetry; apply Z.leb_le; lia).
    replace (0 + count + r <=? zlen buf) with true by (symmetry; apply Z.leb_le; lia). cbn [andb].
    unfold i32.
    replace (-2147483648 <=? count + r) with true by (symmetry; apply Z.leb_le; lia).
    replace (count + r <? 2147483648) with true by (symmetry; apply Z.ltb_lt; lia).
    replace (-2147483648 <=? m - r) with true by (symmetry; apply Z.leb_le; lia).
    replace (m - r <? 2147483648) with true by (symmetry; apply Z.ltb_lt; lia). cbn [andb bind ret].
    set (X := ztab r (fun i => sr (pos + i))). assert (LX : zlen X = r) by (apply zlen_ztab; lia).
    split; [unfold call_ok, pc_ok; cbn; repeat split; lia|]. split; [rewrite zlen_zsplice; lia|]. exists r.
    cbn [rc_count]. split; [lia|]. split; [lia|]. split; [lia|]. intros q Hq. rewrite znth_zsplice by lia. rewrite LX.
    destruct (Z.ltb_spec q count).
    + replace (0 + count <=? q) with false by (symmetry; apply Z.leb_gt; lia). reflexivity.
    + replace (0 + count <=? q) with true by (symmetry; apply Z.leb_le; lia).
      replace (q <? 0 + count + r) with true by (symmetry; apply Z.ltb_lt; lia). cbn [andb]. unfold X. rewrite znth_ztab by lia. f_equal; lia.
  - apply Q; exact Hpc.
  - destruct Hpc.
Qed.
Lemma call_start k : 0 <= k < 2 ^ 31 -> call_ok (rcall_start (0, k)) 0 k.
Proof. intros H. unfold call_ok, rcall_start, pc_ok. cbn. rewrite PropConcRandom.to_int_small by exact H. repeat split; lia. Qed.
(** What a turn in the middle of a request does: the three places of fstep that call [rstep]. *)
Lemma draw_step w src cnt i p s a c buf an : finv w src cnt -> nth_error (fw_procs w) i = Some p -> f_now p = NDraw s a c buf ->
  let '(c', buf', lock, fds, pos') := rstep st an c buf (f_lock p) (f_fds p) (fw_pos w) in
  let p' := mkf (f_mem p) lock fds (f_other p) (NDraw s a c' buf') (f_left p) (f_codes p) (f_done p) (f_inh p) in
  exists src' cnt', forall opos, finv (mkfw (set_proc (fw_procs w) i p' ++ []) pos' opos (fw_count w)) src' cnt'.
Proof.
  intros HI Hi En. pose proof HI as ((S1 & S2 & S3 & S4 & S5) & NU & HA). destruct (HA i p Hi) as (O1 & O2 & O3 & O4 & O5).
  unfold now_ok in O5. rewrite En in O5. destruct O5 as (Q1 & Q2 & Q3 & Q4 & Q5 & Q6).
  pose proof (rstep_cases st an c buf (f_lock p) (f_fds p) (fw_pos w) (takes P a) (takes_bounds a) Q3 Q4) as HR.
  destruct (rstep st an c buf (f_lock p) (f_fds p) (fw_pos w)) as [[[[c' buf'] lock] fds] pos'].
  destruct HR as (R1 & R2 & r & Hr & Ec & Ep & Hz). cbv zeta.
  pose proof R1 as (_ & _ & _ & Hc' & _). pose proof Q3 as (_ & _ & _ & Hc & _).
  set (src' := fun s' k => if Nat.eq_dec s' s then (if k <? rc_count c then src s k else fw_pos w + (k - rc_count c)) else src s' k).
  set (cnt' := fun s' => if Nat.eq_dec s' s then rc_count c' else cnt s').
  assert (Ns : num p = Some s) by (unfold num; rewrite En; reflexivity).
  assert (AV : available (fw_procs w) i s) by (eapply drawn_available; eauto).
  exists src', cnt'. intros opos. eapply finv_set with (src := src) (cnt := cnt) (p := p); [exact HI|exact Hi|lia| | |reflexivity| |left; reflexivity|].
  - split; [lia|]. split; [|split; [|split]].
    + intros s' k Hk. unfold src', cnt' in *. destruct (Nat.eq_dec s' s) as [->|Hn]; [|specialize (S2 s' k Hk); lia].
      destruct (Z.ltb_spec k (rc_count c)); [specialize (S2 s k ltac:(lia)); lia|lia].
    + intros s' k k' Hk Hk'. unfold src', cnt' in *. destruct (Nat.eq_dec s' s) as [->|Hn]; [|exact (S3 s' k k' Hk Hk')].
      destruct (Z.ltb_spec k (rc_count c)), (Z.ltb_spec k' (rc_count c)); try lia.
      * apply S3; lia.
      * specialize (S2 s k ltac:(lia)). lia.
    + intros s1 s2 k k' Hne Hk Hk'. unfold src', cnt' in *. destruct (Nat.eq_dec s1 s) as [->|N1]; destruct (Nat.eq_dec s2 s) as [->|N2].
      * congruence.
      * destruct (Z.ltb_spec k (rc_count c)); [apply S4; auto; lia|]. specialize (S2 s2 k' Hk'). lia.
      * destruct (Z.ltb_spec k' (rc_count c)); [apply S4; auto; lia|]. specialize (S2 s1 k Hk). lia.
      * apply S4; auto.
    + intros s' Hs'. unfold cnt'. destruct (Nat.eq_dec s' s) as [->|Hn]; [lia|apply S5; exact Hs'].
  - assert (X : proc_ok src' cnt' (fw_count w) (moved p NIdle (FCall a :: f_left p))).
    { eapply (proc_ok_ext src cnt); [apply le_n| |].
      - intros s' [H|H]; [|discriminate]. unfold src', cnt'. destruct (Nat.eq_dec s' s) as [->|Hn]; [|auto]. exfalso.
        apply in_map_iff in H. destruct H as ([s2 b] & E & H). cbn in E, H. subst s2. exact (proj1 (AV i p Hi) b H).
      - repeat (split; [assumption|]). exact Q1. }
    destruct X as (X1 & X2 & X3 & X4 & _). split; [exact X1|]. split; [exact X2|]. split; [exact X3|]. split; [exact X4|].
    unfold now_ok. cbn [f_now f_done f_left]. split; [exact Q1|]. split; [exact Q2|]. split; [exact R1|]. split; [exact R2|].
    unfold cnt', src'. destruct (Nat.eq_dec s s) as [_|]; [|congruence]. split; [reflexivity|]. intros k Hk. rewrite Hz by exact Hk.
    destruct (Z.ltb_spec k (rc_count c)); [apply Q6; lia|reflexivity].
  - cbn [num f_now]. intros s' E. injection E as <-. exact AV.
  - intros s'. unfold src', cnt'. destruct (Nat.eq_dec s' s) as [->|Hn]; [right; exact AV|left; auto].
Qed.
Lemma finv_turn w src cnt ia : finv w src cnt -> exists src' cnt', finv (fturn C st file ia w) src' cnt'.
Proof.
  intros HI. destruct ia as [i an]. unfold fturn. cbn [fst snd]. destruct (nth_error (fw_procs w) i) as [p|] eqn:Hi; [|eauto].
  pose proof HI as (HS & NU & HA). pose proof (HA i p Hi) as HP. pose proof HP as (O1 & O2 & O3 & O4 & O5).
  pose proof (fresh_available w src cnt i HI) as FR. unfold fstep.
  assert (SAME : forall p', f_inh p' = f_inh p -> f_done p' = f_done p -> num p' = None -> proc_ok src cnt (fw_count w) p' ->
    finv (mkfw (set_proc (fw_procs w) i p' ++ []) (fw_pos w) (fw_opos w) (fw_count w)) src cnt).
  { intros p' E1 E2 E3 HP'. eapply finv_set with (src := src) (cnt := cnt) (p := p); eauto. intros s E; congruence. }
  destruct (f_now p) as [|s a c buf|e] eqn:En; [| |unfold now_ok in O5; rewrite En in O5; destruct O5].
  - unfold now_ok in O5. rewrite En in O5. destruct (f_left p) as [|[a|ch|fd|fd] l] eqn:El.
    + exists src, cnt. apply SAME; auto. unfold num; rewrite En; reflexivity.
    + destruct (asks P a) as [k|] eqn:Ea; fold P; rewrite Ea.
      * pose proof (asks_takes P a k Ea) as Et. pose proof (takes_bounds a) as Hb. rewrite Et in Hb.
        exists src, cnt. eapply finv_set with (src := src) (cnt := cnt) (p := p); [exact HI|exact Hi|lia| | |reflexivity| |left; reflexivity|auto].
        -- eapply stream_ok_grow; [|exact HS]. lia.
        -- split; [exact O1|]. split; [exact O2|]. split; [exact O3|]. split; [intros s' a' H; destruct (O4 s' a' H); split; [lia|assumption]|].
           unfold now_ok. cbn [f_now moved f_done f_left]. rewrite Et. split; [exact O5|]. split; [lia|]. split; [apply call_start; exact Hb|].
           split; [apply zlen_uninit; lia|]. cbn [rcall_start rc_count]. split; [apply HS; lia|intros; lia].
        -- cbn [num f_now moved]. intros s E. injection E as <-. exact FR.
      * pose proof (asks_none P a Ea) as Et.
        assert (E0 : cnt (fw_count w) = 0) by (apply HS; lia).
        destruct (complete_ok src cnt (Datatypes.S (fw_count w)) (fw_count w) a [] l p ltac:(lia)) as (X1 & X2 & X3 & X4 & _).
        -- eapply proc_ok_ext; [| |exact HP]; [lia|auto].
        -- exact O5.
        -- congruence.
        -- unfold Rof. rewrite E0. reflexivity.
        -- exists src, cnt. eapply finv_set with (src := src) (cnt := cnt) (p := p); [exact HI|exact Hi|lia| |exact X1|exact X4| | |auto].
           ++ eapply stream_ok_grow; [|exact HS]. lia.
           ++ intros s E. congruence.
           ++ right. split; [exact X3|]. exists (fw_count w), a. auto.
    + exists src, cnt. set (child := mkf _ _ _ _ _ _ _ _ _).
      assert (X : finv (mkfw (set_proc (fw_procs w) i (moved p NIdle l) ++ []) (fw_pos w) (fw_opos w) (fw_count w)) src cnt).
      { apply SAME; auto. repeat (split; [assumption|]). unfold now_ok. cbn. eapply follows_step; [exact O5|reflexivity|discriminate]. }
      rewrite app_nil_r in X. destruct X as (_ & N1 & A1). cbn [fw_procs fw_count fw_pos] in N1, A1.
      split; [exact HS|]. cbn [fw_procs fw_count]. split.
      * eapply (numbers_new _ i (moved p NIdle l)); [exact N1|eapply nth_setp_eq; exact Hi|reflexivity|reflexivity|reflexivity].
      * intros j q Hj. destruct (nth_snoc _ _ _ _ Hj) as [Hj'|(_ & ->)]; [eauto|]. repeat (split; [assumption|]).
        unfold now_ok, child. cbn. eapply follows_fork; exact O5.
    + exists src, cnt. apply SAME; auto. split; [cbn; rewrite O1; reflexivity|]. repeat (split; [assumption|]). unfold now_ok. cbn. eapply follows_step; [exact O5|reflexivity|discriminate].
    + exfalso. exact (HO _ _ _ O5).
  - pose proof (draw_step w src cnt i p s a c buf an HI Hi En) as DS.
    assert (RS : exists src' cnt', finv (let '(p', new, pos, opos, n) :=
      (let '(c', buf', lock, fds, pos') := rstep st an c buf (f_lock p) (f_fds p) (fw_pos w) in
        (mkf (f_mem p) lock fds (f_other p) (NDraw s a c' buf') (f_left p) (f_codes p) (f_done p) (f_inh p), [] : list fproc, pos', fw_opos w, fw_count w)) in
      mkfw (set_proc (fw_procs w) i p' ++ new) pos opos n) src' cnt').
    { destruct (rstep st an c buf (f_lock p) (f_fds p) (fw_pos w)) as [[[[c' buf'] lock] fds] pos']. destruct DS as (src' & cnt' & DS). exists src', cnt'. apply DS. }
    pose proof O5 as O5'. unfold now_ok in O5'. rewrite En in O5'. destruct O5' as (Q1 & Q2 & Q3 & Q4 & Q5 & Q6).
    destruct (rc_pc c) as [| |fd| | | | |fd|v|e] eqn:Ep; try exact RS.
    + replace (is_open (f_other p) fd) with false by (rewrite O1; reflexivity). exact RS.
    + destruct Q3 as (_ & Q3 & _ & _ & Q3'). unfold pc_ok in Q3'. rewrite Ep in Q3'. destruct Q3' as (-> & Q3').
      assert (Ec : cnt s = takes P a) by lia.
      assert (Eb : buf = Rof src cnt s).
      { unfold Rof. destruct (takes_bounds a). apply list_ext; [rewrite zlen_ztab; lia|]. intros k Hk. rewrite znth_ztab by lia. apply Q6. lia. }
      destruct (complete_ok src cnt (fw_count w) s a buf (f_left p) p Q2 HP Q1 Ec Eb) as (X1 & X2 & X3 & X4 & _).
      exists src, cnt. eapply finv_set with (src := src) (cnt := cnt) (p := p); [exact HI|exact Hi|lia|exact HS|exact X1|exact X4| | |auto].
      * intros s' E. congruence.
      * right. split; [exact X3|]. exists s, a. split; [exact X2|]. eapply drawn_available; [exact HI|exact Hi|]. unfold num; rewrite En; reflexivity.
    + destruct Q3 as (_ & _ & _ & _ & Q3'). unfold pc_ok in Q3'. rewrite Ep in Q3'. destruct Q3'.
Qed.
Lemma finv_exec sched : forall w src cnt, finv w src cnt -> exists src' cnt', finv (fexec C st file sched w) src' cnt'.
Proof.
  induction sched as [|ia l IH]; intros w src cnt HI; [eauto|]. cbn [fexec fold_left]. destruct (finv_turn w src cnt ia HI) as (src' & cnt' & HI'). eapply IH; exact HI'.
Qed.
Lemma finv_start lock fds : finv (fstart mem0 lock fds pos0 prog) (fun _ _ => 0) (fun _ => 0).
Proof.
  split; [split; [cbn; lia|]; split; [intros; lia|]; split; [intros; lia|]; split; [intros; lia|]; reflexivity|].
  assert (ONE : forall i p, nth_error (fw_procs (fstart mem0 lock fds pos0 prog)) i = Some p -> i = O /\ p = mkf mem0 lock fds [] NIdle prog [] [] 0).
  { intros [|[|i]] p E; cbn in E; try discriminate. injection E as <-. auto. }
  split.
  - split; [|split; [|split]].
    + intros i j p q s b Hp _ E. destruct (ONE i p Hp) as (_ & ->). discriminate.
    + intros i j p q s _ Hp _ E. destruct (ONE i p Hp) as (_ & ->). discriminate.
    + intros i j p q k k' s a b Hp _ _ _ E. destruct (ONE i p Hp) as (_ & ->). destruct k; discriminate.
    + intros i p Hp. destruct (ONE i p Hp) as (-> & ->). cbn. auto.
  - intros i p Hp. destruct (ONE i p Hp) as (_ & ->). split; [reflexivity|]. split; [reflexivity|]. split; [reflexivity|]. split; [intros s a []|]. apply f_here.
Qed.
End Family.

(** ** Safety: every schedule, every behaviour of the operating system *)
(** At every moment of every schedule: no process has run into undefined behaviour; every call that
    returned, returned 0; the memory of every process is what FrodoKEM prescribes for the actions
    it and its ancestors have done, one after another; and these are the actions of its branch of
    the program.  The actions a process inherited are the first ones of the process that made it;
    apart from that every action has its own number.  The random bytes of an action are bytes of
    the device's stream, in the stream's order, and no byte is given out twice, to no two actions
    of any processes. *)
Theorem C50_fork : forall C st file mem lock fds pos prog sched, family C mem prog st -> opens_nothing prog ->
  let P := cP C in
  let w := fexec C st file sched (fstart mem lock fds pos prog) in
  exists (R : nat -> list Z) (src : nat -> Z -> Z),
    (forall i p, nth_error (fw_procs w) i = Some p ->
       (forall e, f_now p <> NDead e) /\
       f_mem p = after_all P (cGen C) R (f_done p) mem /\
       f_codes p = repeat 0 (length (f_done p)) /\
       (f_now p = NIdle -> follows prog (map snd (f_done p)) (f_left p)) /\
       (f_inh p <= length (f_done p))%nat /\
       (i = O /\ f_inh p = O \/ exists j q, (j < i)%nat /\ nth_error (fw_procs w) j = Some q /\
          (f_inh p <= length (f_done q))%nat /\ firstn (f_inh p) (f_done p) = firstn (f_inh p) (f_done q))) /\
    (forall i j k k' s a b, own w i k s a -> own w j k' s b -> i = j /\ k = k') /\
    (forall i p s a, nth_error (fw_procs w) i = Some p -> In (s, a) (f_done p) ->
       R s = ztab (takes P a) (fun k => st (src s k)) /\
       (forall k, 0 <= k < takes P a -> pos <= src s k < fw_pos w) /\
       (forall k k', 0 <= k < k' -> k' < takes P a -> src s k < src s k')) /\
    (forall i p s a j q s' b, nth_error (fw_procs w) i = Some p -> In (s, a) (f_done p) ->
       nth_error (fw_procs w) j = Some q -> In (s', b) (f_done q) -> s <> s' ->
       forall k k', 0 <= k < takes P a -> 0 <= k' < takes P b -> src s k <> src s' k').
Proof.
  intros C st file mem lock fds pos prog sched HF HO P w.
  destruct (finv_exec C st file mem pos prog HF HO sched _ _ _ (finv_start C st mem pos prog lock fds)) as (src & cnt & (S1 & S2 & S3 & S4 & S5) & (_ & _ & N3 & N4) & HA).
  fold w in S1, S2, S3, S4, S5, N3, N4, HA. exists (Rof st src cnt), src. split; [|split; [|split]].
  - intros i p Hi. destruct (HA i p Hi) as (_ & O2 & O3 & _ & O5). unfold now_ok in O5. split; [intros e E; rewrite E in O5; exact O5|].
    split; [exact O2|]. split; [exact O3|]. split; [intros E; rewrite E in O5; exact O5|]. exact (N4 i p Hi).
  - intros i j k k' s a b (p & Hp & K1 & E1) (q & Hq & K2 & E2). exact (N3 i j p q k k' s a b Hp Hq K1 K2 E1 E2).
  - intros i p s a Hi H. destruct (HA i p Hi) as (_ & _ & _ & O4 & _). destruct (O4 s a H) as (_ & E). unfold Rof. fold P in E. rewrite <- E.
    split; [reflexivity|]. split; [intros k Hk; exact (S2 s k Hk)|intros k k' Hk Hk'; exact (S3 s k k' Hk Hk')].
  - intros i p s a j q s' b Hi H Hj H' Hn k k' Hk Hk'. destruct (HA i p Hi) as (_ & _ & _ & O4 & _). destruct (O4 s a H) as (_ & E).
    destruct (HA j q Hj) as (_ & _ & _ & O4' & _). destruct (O4' s' b H') as (_ & E'). fold P in E, E'. apply S4; auto; congruence.
Qed.
Print Assumptions C50_fork.

(** ** Progress *)
(** How many turns a program needs, its children's included. *)
Fixpoint work1 (P : params) (x : faction) : Z :=
  match x with
  | FCall a => 3 * takes P a + 10
  | FFork c => 1 + (fix sum l := match l with [] => 0 | y :: l => work1 P y + sum l end) c
  | _ => 1
  end.
Fixpoint work (P : params) (l : list faction) : Z := match l with [] => 0 | x :: l => work1 P x + work P l end.
Lemma work1_fork P c : work1 P (FFork c) = 1 + work P c.
Proof. cbn [work1]. f_equal. induction c as [|x c IH]; [reflexivity|]. cbn [work]. rewrite <- IH. reflexivity. Qed.

Definition lock_of (p : fproc) : Prop :=
  (f_lock p = -1 \/ In (f_lock p) (f_fds p)) /\ ~ In (-1) (f_fds p) /\
  match f_now p with
  | NDraw _ _ c _ =>
      match rc_pc c with
      | PStore fd => fd = -1 \/ In fd (f_fds p)
      | PWhile | PLock => f_lock p <> -1
      | PRead fd => fd = f_lock p /\ f_lock p <> -1
      | _ => True
      end
  | _ => True
  end.
Definition rank_draw (lock : Z) (c : rcall) : Z :=
  let W := 3 * rc_n c + 2 in
  match rc_pc c with
  | PTest => if lock =? -1 then W + 5 else W + 1
  | POpen => W + 4
  | PStore fd => if fd =? -1 then W + 7 else W + 3
  | PDelay => if lock =? -1 then W + 6 else W + 2
  | PAgain => if lock =? -1 then W + 5 else W + 1
  | PWhile => W
  | PLock => W - 1
  | PRead _ => W - 2
  | _ => 1
  end.
Definition rank (P : params) (p : fproc) : Z :=
  match f_now p with NDraw _ _ c _ => rank_draw (f_lock p) c | _ => 0 end + work P (f_left p).

Section Live.
Variables (C : config) (st file : Z -> Z) (mem0 : list Z) (pos0 : Z) (prog : list faction).
Let P := cP C.
Hypothesis HF : family C mem0 prog st.
Hypothesis HO : opens_nothing prog.
Hypothesis HC : closes_nothing prog.

Lemma takes_nonneg a : 0 <= takes P a. Proof. apply (takes_bounds C st mem0 prog HF a). Qed.
Lemma work1_pos : forall x, 0 < work1 P x.
Proof.
  fix IHx 1. intros [a|c|fd|fd]; [pose proof (takes_nonneg a); cbn [work1]; lia| |reflexivity|reflexivity].
  rewrite work1_fork. enough (0 <= work P c) by lia.
  revert c. fix IH 1. intros [|x c]; cbn [work]; [lia|]. pose proof (IHx x). pose proof (IH c). lia.
Qed.
Lemma work_nonneg l : 0 <= work P l.
Proof. induction l as [|x l IH]; cbn [work]; [lia|]. pose proof (work1_pos x). lia. Qed.
Lemma work_follows d r : forall l, follows l d r -> work P r <= work P l.
Proof.
  intros l H. induction H; cbn [work]; try rewrite work1_fork; try lia.
  - pose proof (work1_pos (FCall a)). lia.
  - pose proof (work_nonneg c). lia.
  - pose proof (work_nonneg l). lia.
  - cbn [work1]. lia.
  - cbn [work1]. lia.
Qed.

Lemma lock_step p an pos opos n : lock_of p -> f_other p = [] -> (f_now p = NIdle -> forall fd l, f_left p <> FClose fd :: l) ->
  let '(p', new, _, _, _) := fstep C st file an p pos opos n in
  lock_of p' /\ forall q, In q new -> lock_of q.
Proof.
  intros (L1 & L2 & L3) EO NC. unfold fstep. destruct (f_now p) as [|s a c buf|e] eqn:En.
  - specialize (NC eq_refl). destruct (f_left p) as [|[a|ch|fd|fd] l] eqn:El.
    + split; [|intros q []]. unfold lock_of. rewrite En. auto.
    + assert (CO : forall n buf, lock_of (complete C n a buf 0 l p)).
      { intros m buf. unfold complete. destruct (perform C a buf 0 (f_mem p)) as [[mem v] t|e]; unfold lock_of; cbn; auto. }
      destruct (asks (cP C) a); (split; [|intros q []]); [|apply CO]. unfold lock_of; cbn; auto.
    + split; [unfold lock_of; cbn; auto|]. intros q [<-|[]]. unfold lock_of; cbn; auto.
    + exfalso. exact (NC fd l eq_refl).
    + split; [unfold lock_of; cbn; auto|intros q []].
  - assert (CO : forall v, lock_of (complete C s a buf v (f_left p) p)).
    { intros v. unfold complete. destruct (perform C a buf v (f_mem p)) as [[mem w] t|e]; unfold lock_of; cbn; auto. }
    destruct c as [b pc m count]. cbn [rc_pc] in *.
    destruct pc as [| |fd| | | | |fd|v|e]; cbn [rstep rc_pc at_ rc_buf rc_n rc_count]; try (split; [|intros q []]; unfold lock_of; cbn; auto; fail).
    + split; [|intros q []]. unfold lock_of; cbn. destruct (Z.eqb_spec (f_lock p) (-1)); cbn; auto.
    + destruct (an_open an) as [fd|]; (split; [|intros q []]); unfold lock_of; cbn; auto. split; [tauto|]. split; [|auto]. intros [H|H]; [lia|contradiction].
    + split; [|intros q []]. unfold lock_of; cbn. destruct (Z.eqb_spec (f_lock p) (-1)); cbn; auto.
    + split; [|intros q []]. unfold lock_of; cbn. destruct (0 <? m); cbn; auto.
    + rewrite EO. cbn [is_open existsb]. unfold rstep. cbn [rc_pc]. destruct (if existsb (Z.eqb fd) (f_fds p) then _ else _) as [|k]; cbv zeta.
      * split; [|intros q []]. unfold lock_of; cbn. tauto.
      * match goal with |- context [match ?m with Ok _ _ => _ | Err _ => _ end] => destruct m as [[[mm cc] nn] t|e] end; (split; [|intros q []]); unfold lock_of; cbn; tauto.
    + split; [apply CO|intros q []].
  - split; [|intros q []]. unfold lock_of. rewrite En. auto.
Qed.

(** A turn of the process itself, answered with success. *)
Lemma rank_step src cnt p an pos opos n : succeeds an -> proc_ok C st mem0 prog src cnt n p -> lock_of p ->
  f_now p = NIdle /\ f_left p = [] /\ fst (fst (fst (fst (fstep C st file an p pos opos n)))) = p \/
  rank P (fst (fst (fst (fst (fstep C st file an p pos opos n))))) < rank P p.
Proof.
  intros (SA & kk & SR & Hkk) (EO & _ & _ & _ & NO) (L1 & L2 & L3). unfold now_ok in NO. unfold fstep.
  assert (CO : forall s a buf v l, rank P (complete C s a buf v l p) = work P l).
  { intros s a buf v l. unfold complete. destruct (perform C a buf v (f_mem p)) as [[mem w] t|e]; reflexivity. }
  destruct (f_now p) as [|s a c buf|e] eqn:En; [| |destruct NO].
  - destruct (f_left p) as [|[a|ch|fd|fd] l] eqn:El; [left; auto|right..]; unfold rank at 2; rewrite En, El; cbn [work].
    + pose proof (takes_bounds C st mem0 prog HF a) as TB. fold P in TB.
      destruct (asks (cP C) a) as [k|] eqn:Ea; cbn [fst].
      * apply asks_takes in Ea. fold P in Ea. unfold rank, rank_draw; cbn [moved f_now f_left f_lock rc_pc rc_n rcall_start snd fst work1].
        rewrite PropConcRandom.to_int_small by lia. destruct (f_lock p =? -1); lia.
      * rewrite CO. cbn [work1]. lia.
    + rewrite work1_fork. pose proof (work_nonneg ch). cbn [fst]. unfold rank, moved. cbn [f_now f_left]. lia.
    + cbn [fst]. unfold rank, descr. cbn [f_now f_left work1]. lia.
    + cbn [fst]. unfold rank, descr. cbn [f_now f_left work1]. lia.
  - right. destruct NO as (Q1 & Q2 & (_ & Q3 & Q3n & Q3c & Q3p) & Q4 & Q5 & Q6). unfold rank at 2. rewrite En.
    pose proof (takes_bounds C st mem0 prog HF a) as TB. fold P in TB, Q3, Q4.
    destruct c as [b pc m count]. unfold pc_ok in Q3p. cbn [rc_pc rc_n rc_count] in *.
    destruct pc as [| |fd| | | | |fd|v|e]; cbn [rstep rc_pc rc_buf rc_n rc_count fst]; unfold rank, rank_draw, moved, at_; cbn [f_now f_left f_lock rc_pc rc_n rc_buf rc_count fst]; try lia.
    + destruct (Z.eqb_spec (f_lock p) (-1)); cbn [rc_pc rc_n]; lia.
    + destruct (an_open an) as [fd|]; [|congruence]. cbn [fst f_now f_left f_lock rc_pc rc_n]. replace (Z.of_nat fd =? -1) with false by (symmetry; apply Z.eqb_neq; lia). lia.
    + destruct (Z.eqb_spec fd (-1)); lia.
    + destruct (Z.eqb_spec (f_lock p) (-1)); lia.
    + destruct (Z.eqb_spec (f_lock p) (-1)); cbn [rc_pc rc_n]; lia.
    + destruct (Z.ltb_spec 0 m); cbn [rc_pc rc_n]; lia.
    + destruct L3 as (-> & L3). assert (IO : is_open (f_fds p) (f_lock p) = true) by (apply is_open_in; tauto).
      rewrite EO. cbn [is_open existsb]. unfold rstep. cbn [rc_pc rc_buf rc_n rc_count]. unfold is_open in IO. fold (is_open (f_fds p) (f_lock p)). unfold is_open. rewrite IO, SR. cbv zeta.
      set (r := Z.max 0 (Z.min kk m)). assert (Hr : 1 <= r <= m) by lia. unfold put. rewrite zlen_ztab by lia. unfold i32.
      match goal with |- context [match ?mm with Ok _ _ => _ | Err _ => _ end] => destruct mm as [[[mm' cc] nn] t|e] eqn:EE end; cbn [fst f_now f_left f_lock rc_pc rc_n at_]; [|lia].
      enough (nn = m - r) by lia. revert EE. unfold bind. repeat match goal with |- context [if ?b then _ else _] => destruct b end; cbn; congruence.
    + change (rank P (complete C s a buf v (f_left p) p) < 1 + work P (f_left p)). rewrite CO. lia.
Qed.

Lemma lock_turn w src cnt ia : finv C st mem0 pos0 prog w src cnt -> (forall i p, nth_error (fw_procs w) i = Some p -> lock_of p) ->
  forall i p, nth_error (fw_procs (fturn C st file ia w)) i = Some p -> lock_of p.
Proof.
  intros (_ & _ & HA) HL j q. destruct ia as [i an]. unfold fturn. cbn [fst snd]. destruct (nth_error (fw_procs w) i) as [p|] eqn:Hi; [|apply HL].
  pose proof (lock_step p an (fw_pos w) (fw_opos w) (fw_count w) (HL i p Hi)) as LS.
  destruct (HA i p Hi) as (EO & _ & _ & _ & NO). specialize (LS EO).
  assert (NC : f_now p = NIdle -> forall fd l, f_left p <> FClose fd :: l).
  { intros E fd l El. unfold now_ok in NO. rewrite E, El in NO. exact (HC _ _ _ NO). }
  specialize (LS NC). destruct (fstep C st file an p (fw_pos w) (fw_opos w) (fw_count w)) as [[[[p' new] pos'] opos'] n']. destruct LS as (L1 & L2). cbn [fw_procs].
  intros Hq. apply nth_error_In in Hq. apply in_app_or in Hq. destruct Hq as [Hq|Hq]; [|auto].
  apply In_nth_error in Hq. destruct Hq as (k & Hk). destruct (nth_setp _ _ _ _ _ _ Hi Hk) as [(_ & ->)|(_ & Hk')]; [exact L1|eauto].
Qed.
Definition reached (w : fworld) : Prop :=
  (exists src cnt, finv C st mem0 pos0 prog w src cnt) /\ forall i p, nth_error (fw_procs w) i = Some p -> lock_of p.
Lemma reached_exec sched : forall w, reached w -> reached (fexec C st file sched w).
Proof.
  induction sched as [|ia l IH]; intros w HW; [exact HW|]. cbn [fexec fold_left]. apply IH. destruct HW as ((src & cnt & HI) & HL). split.
  - exact (finv_turn C st file mem0 pos0 prog HF HO w src cnt ia HI).
  - exact (lock_turn w src cnt ia HI HL).
Qed.
Lemma fturn_nth w i an p : nth_error (fw_procs w) i = Some p ->
  nth_error (fw_procs (fturn C st file (i, an) w)) i = Some (fst (fst (fst (fst (fstep C st file an p (fw_pos w) (fw_opos w) (fw_count w)))))).
Proof.
  intros Hi. unfold fturn. cbn [fst snd]. rewrite Hi. destruct (fstep C st file an p (fw_pos w) (fw_opos w) (fw_count w)) as [[[[p' new] pos'] opos'] n']. cbn [fw_procs fst].
  rewrite nth_error_app1; [eapply nth_setp_eq; exact Hi|]. rewrite length_setp. apply nth_error_Some. congruence.
Qed.
Lemma fturn_other w i j an p : j <> i -> nth_error (fw_procs w) i = Some p -> nth_error (fw_procs (fturn C st file (j, an) w)) i = Some p.
Proof.
  intros Hn Hi. unfold fturn. cbn [fst snd]. destruct (nth_error (fw_procs w) j) as [q|] eqn:Hj; [|exact Hi].
  destruct (fstep C st file an q (fw_pos w) (fw_opos w) (fw_count w)) as [[[[p' new] pos'] opos'] n']. cbn [fw_procs fst].
  rewrite nth_error_app1; [rewrite nth_setp_ne by exact Hn; exact Hi|]. rewrite length_setp. apply nth_error_Some. congruence.
Qed.
Lemma ends i late : forall w p, reached w -> nth_error (fw_procs w) i = Some p -> (forall an, In (i, an) late -> succeeds an) ->
  f_now p = NIdle /\ f_left p = [] \/ rank P p <= Z.of_nat (turns i late) ->
  exists p', nth_error (fw_procs (fexec C st file late w)) i = Some p' /\ f_now p' = NIdle /\ f_left p' = [].
Proof.
  induction late as [|[j an] late IH]; intros w p HW Hi HS HR; cbn [fexec fold_left].
  - destruct HR as [HR|HR]; [eauto|]. exists p. split; [exact Hi|]. cbn in HR. destruct HW as ((src & cnt & _ & _ & HA) & _). destruct (HA i p Hi) as (_ & _ & _ & _ & NO).
    unfold now_ok in NO. unfold rank in HR. pose proof (work_nonneg (f_left p)). destruct (f_now p) as [|s a c buf|e]; [|exfalso|destruct NO].
    + split; [reflexivity|]. destruct (f_left p) as [|x l]; [reflexivity|]. cbn [work] in HR. pose proof (work1_pos x). pose proof (work_nonneg l). lia.
    + destruct NO as (_ & _ & (_ & _ & Q3 & _ & Q4) & _). unfold pc_ok in Q4. unfold rank_draw in HR. destruct (rc_pc c); repeat match goal with HR : context [if ?b then _ else _] |- _ => destruct b end; lia.
  - assert (HS' : forall an, In (i, an) late -> succeeds an) by (intros an' H; apply HS; right; exact H).
    assert (HW' : reached (fturn C st file (j, an) w)) by (apply (reached_exec [(j, an)]); exact HW).
    destruct (Nat.eq_dec j i) as [->|Hn].
    + pose proof (fturn_nth w i an p Hi) as Hi'. eapply IH; [exact HW'|exact Hi'|exact HS'|].
      destruct HW as ((src & cnt & _ & _ & HA) & HL).
      destruct (rank_step src cnt p an (fw_pos w) (fw_opos w) (fw_count w) (HS an ltac:(left; reflexivity)) (HA i p Hi) (HL i p Hi)) as [(E1 & E2 & E3)|HR'].
      * left. rewrite E3. auto.
      * destruct HR as [(E1 & E2)|HR].
        -- exfalso. unfold fstep in HR'. rewrite E1, E2 in HR'. cbn [fst] in HR'. lia.
        -- right. unfold turns in HR. cbn [map fst] in HR. rewrite count_occ_cons_eq in HR by reflexivity. unfold turns. lia.
    + eapply IH; [exact HW'|apply fturn_other; [exact Hn|exact Hi]|exact HS'|].
      destruct HR as [HR|HR]; [auto|right]. unfold turns in HR. cbn [map fst] in HR. rewrite count_occ_cons_neq in HR by exact Hn. exact HR.
Qed.
Lemma rank_bound w i p : reached w -> nth_error (fw_procs w) i = Some p -> rank P p <= work P prog.
Proof.
  intros ((src & cnt & _ & _ & HA) & _) Hi. destruct (HA i p Hi) as (_ & _ & _ & _ & NO). unfold now_ok in NO. unfold rank.
  destruct (f_now p) as [|s a c buf|e]; [apply work_follows in NO; lia| |destruct NO].
  destruct NO as (Q1 & _ & (_ & Q3 & Q3n & Q3c & _) & _). apply work_follows in Q1. cbn [work work1] in Q1. fold P in Q3.
  unfold rank_draw. destruct (rc_pc c); repeat match goal with |- context [if ?b then _ else _] => destruct b end; lia.
Qed.
End Live.

(** Whatever happened before ([early]: any schedule, any failures) and whatever the other processes
    do or whether they run at all: a process that gets [work] turns, in which the system answers
    its calls of open() and read() with success, has done all of its program. *)
Theorem C50_ends : forall C st file mem lock fds pos prog early late i,
  family C mem prog st -> opens_nothing prog -> closes_nothing prog -> device_ok lock fds ->
  (i < length (fw_procs (fexec C st file early (fstart mem lock fds pos prog))))%nat ->
  (forall an, In (i, an) late -> succeeds an) -> work (cP C) prog <= Z.of_nat (turns i late) ->
  exists p, nth_error (fw_procs (fexec C st file (early ++ late) (fstart mem lock fds pos prog))) i = Some p /\
    f_now p = NIdle /\ f_left p = [] /\ follows prog (map snd (f_done p)) [].
Proof.
  intros C st file mem lock fds pos prog early late i HF HO HC (D1 & D2) Hi HS HW.
  assert (R0 : reached C st mem pos prog (fstart mem lock fds pos prog)).
  { split; [do 2 eexists; apply finv_start|]. intros [|[|j]] p E; cbn in E; try discriminate. injection E as <-. unfold lock_of; cbn. auto. }
  unfold fexec at 1. rewrite fold_left_app. fold (fexec C st file early (fstart mem lock fds pos prog)). set (w := fexec C st file early (fstart mem lock fds pos prog)) in *.
  assert (RW : reached C st mem pos prog w) by (apply reached_exec; assumption).
  destruct (nth_error (fw_procs w) i) as [p|] eqn:Ep; [|apply nth_error_None in Ep; lia].
  destruct (ends C st file mem pos prog HF HO HC i late w p RW Ep HS) as (p' & Hp' & E1 & E2).
  { right. etransitivity; [|exact HW]. eapply rank_bound; eauto. }
  exists p'. split; [exact Hp'|]. split; [exact E1|]. split; [exact E2|].
  assert (RL : reached C st mem pos prog (fexec C st file late w)) by (apply reached_exec; assumption).
  destruct RL as ((src & cnt & _ & _ & HA) & _). destruct (HA i p' Hp') as (_ & _ & _ & _ & NO). unfold now_ok in NO. rewrite E1, E2 in NO. exact NO.
Qed.
Print Assumptions C50_ends.

(** ** What the descriptor kept in a static variable costs *)
(** A program that closes all its descriptors, as daemons do after fork(), also closes the one the
    library keeps.  Under no schedule and no behaviour of the system does the next action that
    needs random bytes ever end. *)
Theorem C50_closed : forall C st file mem lock fds pos a rest sched p,
  0 < takes (cP C) a < 2 ^ 31 -> lock <> -1 ->
  nth_error (fw_procs (fexec C st file sched (fstart mem lock fds pos (FClose lock :: FCall a :: rest)))) 0 = Some p ->
  f_done p = [] /\ f_codes p = [] /\ f_mem p = mem.
Proof.
  intros C st file mem lock fds pos a rest sched p Ht Hl.
  assert (Ea : asks (cP C) a = Some (takes (cP C) a)) by (destruct a; cbn in Ht |- *; try lia; reflexivity).
  set (I := fun w => exists p, fw_procs w = [p] /\ f_done p = [] /\ f_codes p = [] /\ f_mem p = mem /\ f_lock p = lock /\
    (f_now p = NIdle /\ f_left p = FClose lock :: FCall a :: rest \/
     (is_open (f_fds p) lock = false /\ is_open (f_other p) lock = false /\
      (f_now p = NIdle /\ f_left p = FCall a :: rest \/
       exists s c buf, f_now p = NDraw s a c buf /\ 0 < rc_n c /\ (rc_pc c = PTest \/ rc_pc c = PWhile \/ rc_pc c = PLock \/ rc_pc c = PRead lock))))).
  assert (W : forall l, is_open (without lock l) lock = false).
  { intros l. destruct (is_open (without lock l) lock) eqn:E; [|reflexivity]. apply is_open_in in E. unfold without in E. apply filter_In in E. destruct E as (_ & E). rewrite Z.eqb_refl in E. discriminate. }
  assert (K : forall sched w, I w -> I (fexec C st file sched w)).
  { clear p sched. induction sched as [|[i an] l IH]; intros w HI; [exact HI|]. cbn [fexec fold_left]. apply IH. clear IH l.
    destruct HI as (p & Ew & E1 & E2 & E3 & E4 & HI). unfold fturn. cbn [fst snd]. rewrite Ew. destruct i as [|[|i]]; cbn [nth_error]; [|exists p; rewrite Ew; auto 10..].
    unfold fstep. destruct HI as [(En & El)|(N1 & N2 & [(En & El)|(s & c & buf & En & Hn & Hp)])]; rewrite En, ?El, ?Ea; cbn [set_proc app].
    - eexists. cbn [fw_procs]. split; [reflexivity|]. cbn [descr f_done f_codes f_mem f_lock f_fds f_other f_now f_left]. repeat (split; [assumption|]). right. rewrite !W. auto.
    - eexists. cbn [fw_procs]. split; [reflexivity|]. cbn [moved f_done f_codes f_mem f_lock f_fds f_other f_now f_left]. repeat (split; [assumption|]). right. split; [exact N1|]. split; [exact N2|]. right.
      do 3 eexists. split; [reflexivity|]. cbn [rcall_start rc_n rc_pc snd]. rewrite PropConcRandom.to_int_small by lia. split; [lia|auto].
    - destruct c as [b pc m count]. cbn [rc_n rc_pc] in *. assert (Lk : (lock =? -1) = false) by (apply Z.eqb_neq; exact Hl).
      destruct Hp as [->|[->|[->| ->]]]; cbn [rstep rc_pc]; rewrite ?E4, ?Lk, ?N2; unfold rstep; cbn [rc_pc rc_n]; rewrite ?E4, ?Lk, ?N1; unfold at_; cbn [rc_buf rc_n rc_count set_proc app].
      + eexists. cbn [fw_procs]. split; [reflexivity|]. cbn [f_done f_codes f_mem f_lock f_fds f_other f_now f_left]. repeat (split; [try reflexivity; assumption|]). right. split; [exact N1|]. split; [exact N2|]. right. do 3 eexists. split; [reflexivity|]. cbn. auto.
      + replace (0 <? m) with true by (symmetry; apply Z.ltb_lt; lia). eexists. cbn [fw_procs]. split; [reflexivity|]. cbn [f_done f_codes f_mem f_lock f_fds f_other f_now f_left]. repeat (split; [try reflexivity; assumption|]). right. split; [exact N1|]. split; [exact N2|]. right. do 3 eexists. split; [reflexivity|]. cbn. auto.
      + eexists. cbn [fw_procs]. split; [reflexivity|]. cbn [f_done f_codes f_mem f_lock f_fds f_other f_now f_left]. repeat (split; [try reflexivity; assumption|]). right. split; [exact N1|]. split; [exact N2|]. right. do 3 eexists. split; [reflexivity|]. cbn. auto.
      + eexists. cbn [fw_procs]. split; [reflexivity|]. cbn [f_done f_codes f_mem f_lock f_fds f_other f_now f_left]. repeat (split; [try reflexivity; assumption|]). right. split; [exact N1|]. split; [exact N2|]. right. do 3 eexists. split; [reflexivity|]. cbn. auto. }
  intros Hp. destruct (K sched (fstart mem lock fds pos (FClose lock :: FCall a :: rest))) as (q & Eq & E1 & E2 & E3 & _).
  { eexists. cbn. split; [reflexivity|]. auto 10. }
  rewrite Eq in Hp. injection Hp as <-. auto.
Qed.
Print Assumptions C50_closed.
(** If another file is opened meanwhile and gets the number of the closed descriptor, the library
    takes that file for the random device: the action ends with code 0 and all its random bytes
    are the file's. *)
Theorem C50_device_only_refuted : forall C st file mem lock fds pos a, valid (cP C) -> build_ok C -> fits (cP C) mem a ->
  0 < takes (cP C) a < 2 ^ 31 -> (forall i, 0 <= file i < 256) -> lock <> -1 ->
  exists sched p, let w := fexec C st file sched (fstart mem lock fds pos [FClose lock; FOther lock; FCall a]) in
    nth_error (fw_procs w) 0 = Some p /\ f_now p = NIdle /\ f_left p = [] /\ f_codes p = [0] /\ fw_pos w = pos /\
    f_mem p = effect_of (cP C) (cGen C) (segment file 0 (takes (cP C) a)) a mem.
Proof.
  intros C st file mem lock fds pos a V Hb Hf Ht Hfile Hl. set (P := cP C) in *. set (n := takes P a) in *.
  assert (Ea : asks P a = Some n) by (unfold n; destruct a; cbn in Ht |- *; try lia; reflexivity).
  assert (Lk : (lock =? -1) = false) by (apply Z.eqb_neq; exact Hl).
  destruct (perform_effect C a (segment file 0 n) mem V Hb Hf) as (t & E).
  { fold P; fold n; split; [apply zlen_ztab; lia|apply inrange_ztab; intros; apply Hfile]. }
  set (an := {| an_open := None; an_read := RGive n |}).
  set (fd1 := without lock fds). assert (IO : is_open [lock] lock = true) by (unfold is_open; cbn; rewrite Z.eqb_refl; reflexivity).
  assert (S : forall k p q pos opos m pos' opos' m', fstep C st file an p pos opos m = (q, [], pos', opos', m') ->
     fexec C st file (repeat (O, an) (Datatypes.S k)) (mkfw [p] pos opos m) = fexec C st file (repeat (O, an) k) (mkfw [q] pos' opos' m')).
  { intros k p q ps os m ps' os' m' Es. cbn [repeat fexec fold_left]. unfold fturn at 2. cbn [fst snd fw_procs fw_pos fw_opos fw_count nth_error]. rewrite Es. reflexivity. }
  set (D := fun c buf => mkf mem lock fd1 [lock] (NDraw O a c buf) [] [] [] 0).
  set (bufn := ztab n (fun i => file (0 + i))).
  set (pe := mkf (effect_of P (cGen C) (segment file 0 n) a mem) lock fd1 [lock] NIdle [] [0] [(O, a)] 0).
  assert (Eb : zsplice (uninit n) (0 + 0) bufn = segment file 0 n).
  { unfold segment, bufn. apply list_ext; [rewrite zlen_zsplice; rewrite ?zlen_ztab, ?zlen_uninit; lia|]. intros k Hk. rewrite zlen_zsplice in Hk by (rewrite ?zlen_ztab, ?zlen_uninit; lia). rewrite zlen_uninit in Hk by lia.
    rewrite znth_zsplice by (rewrite ?zlen_ztab, ?zlen_uninit; lia). rewrite zlen_ztab by lia.
    replace (0 + 0 <=? k) with true by (symmetry; apply Z.leb_le; lia). replace (k <? 0 + 0 + n) with true by (symmetry; apply Z.ltb_lt; lia). cbn [andb]. f_equal; lia. }
  assert (X : fexec C st file (repeat (O, an) 9) (fstart mem lock fds pos [FClose lock; FOther lock; FCall a]) = mkfw [pe] pos (0 + n) 1).
  { unfold fstart.
    rewrite (S _ _ (mkf mem lock fd1 [] NIdle [FOther lock; FCall a] [] [] 0) _ _ _ pos 0 O) by reflexivity.
    rewrite (S _ _ (mkf mem lock fd1 [lock] NIdle [FCall a] [] [] 0) _ _ _ pos 0 O) by reflexivity.
    rewrite (S _ _ (D (mkc 0 PTest n 0) (uninit n)) _ _ _ pos 0 1%nat).
    2:{ cbn [fstep f_now f_left]. fold P. rewrite Ea. unfold rcall_start. cbn [fst snd]. rewrite PropConcRandom.to_int_small by lia. reflexivity. }
    rewrite (S _ _ (D (mkc 0 PWhile n 0) (uninit n)) _ _ _ pos 0 1%nat).
    2:{ unfold fstep, D. cbn [f_now rc_pc]. unfold rstep. cbn [rc_pc f_lock]. rewrite Lk. reflexivity. }
    rewrite (S _ _ (D (mkc 0 PLock n 0) (uninit n)) _ _ _ pos 0 1%nat).
    2:{ unfold fstep, D. cbn [f_now rc_pc]. unfold rstep. cbn [rc_pc rc_n]. replace (0 <? n) with true by (symmetry; apply Z.ltb_lt; lia). reflexivity. }
    rewrite (S _ _ (D (mkc 0 (PRead lock) n 0) (uninit n)) _ _ _ pos 0 1%nat).
    2:{ unfold fstep, D. cbn [f_now rc_pc]. unfold rstep. cbn [rc_pc]. reflexivity. }
    rewrite (S _ _ (D (mkc 0 PWhile 0 (0 + n)) (segment file 0 n)) _ _ _ pos (0 + n) 1%nat).
    2:{ unfold fstep, D. cbn [f_now rc_pc f_other]. rewrite IO. unfold rstep. cbn [rc_pc rc_n rc_buf rc_count]. rewrite IO. unfold an. cbn [an_read]. cbv zeta.
      replace (Z.max 0 (Z.min n n)) with n by lia. fold bufn. unfold put. replace (zlen bufn) with n by (unfold bufn; rewrite zlen_ztab; lia). rewrite zlen_uninit by lia.
      replace (0 + 0 + n <=? n) with true by (symmetry; apply Z.leb_le; lia). replace (0 <=? 0 + 0) with true by reflexivity. cbn [andb]. unfold i32.
      replace (-2147483648 <=? 0 + n) with true by (symmetry; apply Z.leb_le; lia).
      replace (0 + n <? 2147483648) with true by (symmetry; apply Z.ltb_lt; lia).
      replace (n - n) with 0 by lia. replace (-2147483648 <=? 0) with true by reflexivity. replace (0 <? 2147483648) with true by reflexivity. cbn [andb bind ret]. rewrite Eb. reflexivity. }
    rewrite (S _ _ (D (mkc 0 (PRet 0) 0 (0 + n)) (segment file 0 n)) _ _ _ pos (0 + n) 1%nat).
    2:{ unfold fstep, D. cbn [f_now rc_pc]. unfold rstep. cbn [rc_pc rc_n]. reflexivity. }
    rewrite (S _ _ pe _ _ _ pos (0 + n) 1%nat); [reflexivity|].
    unfold fstep, D. cbn [f_now rc_pc]. unfold complete. cbn [f_mem]. rewrite E. reflexivity. }
  exists (repeat (O, an) 9), pe. cbv zeta. rewrite X. unfold pe. cbn [fw_procs nth_error f_now f_left f_codes f_mem fw_pos]. repeat (split; [reflexivity|]). reflexivity.
Qed.
Print Assumptions C50_device_only_refuted.

(** ** The hypotheses are met *)
(** In a memory without uninitialised bytes only the addresses matter. *)
Theorem C50_placed : forall C mem prog, valid (cP C) -> bytes_ok mem ->
  (forall d r, follows prog d r -> Forall (placed (cP C) (zlen mem)) d) ->
  forall l r R, follows prog (map snd l) r -> sized (cP C) R l -> in_order (cP C) (cGen C) R l mem.
Proof.
  intros C mem prog V Bm H l r R HF HS. apply C45_placed; [exact V|exact Bm|exact HS|]. specialize (H _ _ HF). rewrite Forall_map in H. exact H.
Qed.
Print Assumptions C50_placed.
(** FrodoKEM-976: a process makes a key pair and forks a child, which encapsulates to that key and
    forks a process that decapsulates; then it makes another key pair and overwrites a byte. *)
Definition prog976 : list faction :=
  [FCall (AKeyPair 0 16000);
   FFork [FCall (AEnc 48000 64000 0); FFork [FCall (ADec 64100 48000 16000)]; FCall (AEnc 65000 81000 0)];
   FCall (AKeyPair 0 16000); FCall (AStore 16500 [7])].
Example C50_hyps : family C976 mem976 prog976 stream976 /\ opens_nothing prog976 /\ closes_nothing prog976 /\ device_ok (-1) [].
Proof.
  assert (INV : forall d r, follows prog976 d r -> Forall (placed (cP C976) 100000) d /\ forall fd l, r <> FOther fd :: l /\ r <> FClose fd :: l).
  { assert (Epk : pkBytes (cP C976) = 15632) by reflexivity. assert (Esk : skBytes (cP C976) = 31296) by reflexivity.
    assert (Ect : ctBytes (cP C976) = 15744) by reflexivity. assert (ECB : pCB (cP C976) = 24) by reflexivity.
    assert (P1 : placed (cP C976) 100000 (AKeyPair 0 16000)) by (unfold placed, disjoint; cbv zeta; rewrite ?Epk, ?Esk, ?Ect, ?ECB; lia).
    assert (P2 : placed (cP C976) 100000 (AEnc 48000 64000 0)) by (unfold placed, disjoint; cbv zeta; rewrite ?Epk, ?Esk, ?Ect, ?ECB; lia).
    assert (P3 : placed (cP C976) 100000 (AEnc 65000 81000 0)) by (unfold placed, disjoint; cbv zeta; rewrite ?Epk, ?Esk, ?Ect, ?ECB; lia).
    assert (P4 : placed (cP C976) 100000 (ADec 64100 48000 16000)) by (unfold placed, disjoint; cbv zeta; rewrite ?Epk, ?Esk, ?Ect, ?ECB; repeat split; try lia; reflexivity).
    assert (P5 : placed (cP C976) 100000 (AStore 16500 [7])).
    { unfold placed. cbv zeta. change (zlen [7]) with 1. split; [lia|]. repeat (apply Forall_cons || apply Forall_nil). lia. }
    clear Epk Esk Ect ECB. intros d r H. unfold prog976 in H.
    repeat match goal with
    | H : follows (_ :: _) _ _ |- _ => inversion H; subst; clear H
    | H : follows [] _ _ |- _ => inversion H; subst; clear H
    end; (split; [repeat (constructor; [assumption|]); constructor|intros; split; discriminate]). }
  assert (L : zlen mem976 = 100000) by (apply zlen_ztab; lia).
  assert (B : bytes_ok mem976) by (apply inrange_ztab; intros; apply mod256).
  split; [|split; [|split]].
  - split; [exact valid_976|]. split; [intros H; exfalso; apply H; reflexivity|]. split; [vm_compute; reflexivity|]. split; [intros; apply mod256|].
    revert L B. generalize mem976. intros mem L B. apply (C50_placed C976); [exact valid_976|exact B|]. rewrite L. intros d r H. apply (INV d r H).
  - intros d fd l H. destruct (INV _ _ H) as (_ & N). destruct (N fd l) as (N1 & _). congruence.
  - intros d fd l H. destruct (INV _ _ H) as (_ & N). destruct (N fd l) as (_ & N1). congruence.
  - split; [left; reflexivity|intros []].
Qed.
(** Three processes come to exist, and 2000 turns are enough for each of them. *)
Example C50_enough : work (cP C976) prog976 <= 2000.
Proof. vm_compute. discriminate. Qed.
