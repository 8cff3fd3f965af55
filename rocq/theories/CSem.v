(** A small semantics for the C constructs used by the modelled code.

    A computation either finishes with a value and the trace of everything a
    timing/cache observer could see, or stops with an error.  All undefined
    behaviour that the modelled code could meet is a distinct error, so that a
    proof of [wp m Q] is also a proof that no undefined behaviour occurs. *)
From Verif Require Export ZList.

(** Ways to fail. *)
Inductive err :=
| UB_oob        (* access outside an array *)
| UB_uninit     (* use of an uninitialised cell *)
| UB_overflow   (* signed overflow *)
| UB_shift      (* shift amount or operand out of range *)
| UB_align      (* misaligned access *)
| AssertFail    (* assert() failed *)
| UB_overlap    (* memcpy between overlapping regions *)
| UB_race       (* interference of another thread, Conc.v *)
| OutOfFuel.    (* the loop bound of the model was exceeded *)

(** What an observer of control flow and addresses sees. *)
Inductive event :=
| ERd (i : Z)          (* array read at index i *)
| EWr (i : Z)          (* array write at index i *)
| EBr (b : bool)       (* branch decision *)
| ELoop (lo hi : Z)    (* counted loop entered with these bounds *)
| ESlice (o n : Z).    (* pointer into a buffer / block copy: offset and length *)

(** The outcome of a computation: a value and the trace, or an error. *)
Inductive res (A : Type) :=
| Ok (a : A) (t : list event)
| Err (e : err).
Arguments Ok {A}. Arguments Err {A}.

(** No code: the value a, nothing observed. *)
Definition ret {A} (a : A) : res A := Ok a [].
(** The error e. *)
Definition fail {A} (e : err) : res A := Err e.
(** m; then f with the value of m. *)
Definition bind {A B} (m : res A) (f : A -> res B) : res B :=
  match m with
  | Ok a t => match f a with Ok b t' => Ok b (t ++ t') | Err e => Err e end
  | Err e => Err e
  end.
(** An event is observed. *)
Definition emit (e : event) : res unit := Ok tt [e].

Declare Scope cm_scope.
Delimit Scope cm_scope with cm.
Notation "x <- m ;; k" := (bind m (fun x => k))
  (at level 61, m at next level, right associativity) : cm_scope.
Notation "' p <- m ;; k" := (bind m (fun x => match x with p => k end))
  (at level 61, p pattern, m at next level, right associativity) : cm_scope.
Notation "m ;;; k" := (bind m (fun _ => k))
  (at level 61, right associativity) : cm_scope.
Open Scope cm_scope.

(** An uninitialised cell of an array. *)
Definition undef : Z := -1.
(** A fresh automatic array without initialiser. *)
Definition uninit (n : Z) : list Z := zrep n undef.

(** Array read: in bounds and initialised. *)
Definition rd (l : list Z) (i : Z) : res Z :=
  if (0 <=? i) && (i <? zlen l)
  then let v := znth l i in if v <? 0 then Err UB_uninit else Ok v [ERd i]
  else Err UB_oob.
(** Array write: in bounds. *)
Definition wr (l : list Z) (i v : Z) : res (list Z) :=
  if (0 <=? i) && (i <? zlen l) then Ok (zset l i v) [EWr i] else Err UB_oob.

(** Pointer [&l[o]] to [n] valid elements: read side ... *)
Definition sub (l : list Z) (o n : Z) : res (list Z) :=
  if (0 <=? o) && (0 <=? n) && (o + n <=? zlen l)
  then Ok (zslice l o n) [ESlice o n] else Err UB_oob.
(** ... and write-back side. *)
Definition put (l : list Z) (o : Z) (x : list Z) : res (list Z) :=
  if (0 <=? o) && (o + zlen x <=? zlen l)
  then Ok (zsplice l o x) [ESlice o (zlen x)] else Err UB_oob.

(** memset(l + o, v, n). *)
Definition memset (l : list Z) (o v n : Z) : res (list Z) :=
  if 0 <=? n then put l o (zrep n v) else Err UB_oob.
(** memcpy(dst + doff, src + soff, n) between distinct objects. *)
Definition memcpy (dst : list Z) (doff : Z) (src : list Z) (soff n : Z) : res (list Z) :=
  x <- sub src soff n ;; put dst doff x.

(** if (c) m1 else m2; the decision is observable. *)
Definition branch {A} (c : bool) (m1 m2 : res A) : res A :=
  emit (EBr c) ;;; if c then m1 else m2.
(** assert(c) *)
Definition assert_ (c : bool) : res unit := if c then ret tt else Err AssertFail.

(** for (i = lo; i < hi; i += step) s = body i s *)
Fixpoint for_n {S} (n : nat) (i step : Z) (body : Z -> S -> res S) (s : S) : res S :=
  match n with
  | O => ret s
  | Datatypes.S n' => s' <- body i s ;; for_n n' (i + step) step body s'
  end.
(** The counted loop with step, its bounds observable. *)
Definition for_step {S} (lo hi step : Z) (body : Z -> S -> res S) (s : S) : res S :=
  emit (ELoop lo hi) ;;; for_n (Z.to_nat ((hi - lo + step - 1) / step)) lo step body s.
(** The counted loop with step 1. *)
Definition for_ {S} (lo hi : Z) (body : Z -> S -> res S) (s : S) : res S :=
  emit (ELoop lo hi) ;;; for_n (Z.to_nat (hi - lo)) lo 1 body s.

(** General loop: the body returns the new state and whether to go on;
    the decision is observable. *)
Fixpoint loop {S} (fuel : nat) (body : S -> res (S * bool)) (s : S) : res S :=
  match fuel with
  | O => Err OutOfFuel
  | Datatypes.S f =>
      '(s', go) <- body s ;;
      emit (EBr go) ;;;
      if go then loop f body s' else ret s'
  end.

(** Conversions to the unsigned types (value kept modulo 2^n). *)
Definition u8 (x : Z) : Z := x mod 256.
(** (uint16_t)x *)
Definition u16 (x : Z) : Z := x mod 65536.
(** (uint32_t)x *)
Definition u32 (x : Z) : Z := x mod 4294967296.
(** (uint64_t)x *)
Definition u64 (x : Z) : Z := x mod 18446744073709551616.
(** Conversion of an unsigned bit pattern to a signed type (two's complement). *)
Definition s8 (x : Z) : Z := let y := x mod 256 in if y <? 128 then y else y - 256.
(** (int16_t)x *)
Definition s16 (x : Z) : Z := let y := x mod 65536 in if y <? 32768 then y else y - 65536.
(** Result of an [int] operation: undefined behaviour when it does not fit. *)
Definition i32 (x : Z) : res Z :=
  if (-2147483648 <=? x) && (x <? 2147483648) then ret x else Err UB_overflow.
(** [x << n] on [int] (C11 6.5.7: x non-negative and x*2^n representable). *)
Definition shl32 (x n : Z) : res Z :=
  if (0 <=? n) && (n <? 32) && (0 <=? x) && (Z.shiftl x n <? 2147483648)
  then ret (Z.shiftl x n) else Err UB_shift.
(** [x >> n] on [int]; arithmetic shift for negative x (implementation-defined,
    as on every compiler the project targets). *)
Definition shr32 (x n : Z) : res Z :=
  if (0 <=? n) && (n <? 32) then ret (Z.shiftr x n) else Err UB_shift.
(** shifts on uint64_t *)
Definition shl64 (x n : Z) : res Z :=
  if (0 <=? n) && (n <? 64) then ret (u64 (Z.shiftl x n)) else Err UB_shift.
(** x >> n on uint64_t *)
Definition shr64 (x n : Z) : res Z :=
  if (0 <=? n) && (n <? 64) then ret (Z.shiftr x n) else Err UB_shift.

(* ================================================================== *)
(** * Program logic *)

(** [wp m Q]: [m] terminates without error and its value satisfies [Q]. *)
Definition wp {A} (m : res A) (Q : A -> Prop) : Prop :=
  exists a t, m = Ok a t /\ Q a.

Lemma wp_ret {A} (a : A) (Q : A -> Prop) : Q a -> wp (ret a) Q.
Proof. intros; exists a, []; auto. Qed.
Lemma wp_ok {A} (a : A) t (Q : A -> Prop) : Q a -> wp (Ok a t) Q.
Proof. intros; exists a, t; auto. Qed.
Lemma wp_bind {A B} (m : res A) (f : A -> res B) Q :
  wp m (fun a => wp (f a) Q) -> wp (bind m f) Q.
Proof.
  intros (a & t & -> & b & t' & E & H); cbn; rewrite E; exists b, (t ++ t'); auto.
Qed.
Lemma wp_mono {A} (m : res A) (P Q : A -> Prop) :
  wp m P -> (forall a, P a -> Q a) -> wp m Q.
Proof. intros (a & t & -> & H) HQ; exists a, t; auto. Qed.
Lemma wp_emit e (Q : unit -> Prop) : Q tt -> wp (emit e) Q.
Proof. intros; exists tt, [e]; auto. Qed.
Lemma wp_rd l i (Q : Z -> Prop) :
  0 <= i < zlen l -> 0 <= znth l i -> Q (znth l i) -> wp (rd l i) Q.
Proof.
  intros Hi Hv HQ; unfold rd.
  destruct (Z.leb_spec 0 i); [|lia]; destruct (Z.ltb_spec i (zlen l)); [|lia]; cbn.
  destruct (Z.ltb_spec (znth l i) 0); [lia|]; now apply wp_ok.
Qed.
Lemma wp_wr l i v (Q : list Z -> Prop) :
  0 <= i < zlen l -> Q (zset l i v) -> wp (wr l i v) Q.
Proof.
  intros Hi HQ; unfold wr.
  destruct (Z.leb_spec 0 i); [|lia]; destruct (Z.ltb_spec i (zlen l)); [|lia]; cbn.
  now apply wp_ok.
Qed.
Lemma wp_sub l o n (Q : list Z -> Prop) :
  0 <= o -> 0 <= n -> o + n <= zlen l -> Q (zslice l o n) -> wp (sub l o n) Q.
Proof.
  intros; unfold sub.
  destruct (Z.leb_spec 0 o); [|lia]; destruct (Z.leb_spec 0 n); [|lia];
  destruct (Z.leb_spec (o + n) (zlen l)); [|lia]; now apply wp_ok.
Qed.
Lemma wp_put l o x (Q : list Z -> Prop) :
  0 <= o -> o + zlen x <= zlen l -> Q (zsplice l o x) -> wp (put l o x) Q.
Proof.
  intros; unfold put.
  destruct (Z.leb_spec 0 o); [|lia]; destruct (Z.leb_spec (o + zlen x) (zlen l)); [|lia];
  now apply wp_ok.
Qed.
Lemma wp_memset l o v n (Q : list Z -> Prop) :
  0 <= o -> 0 <= n -> o + n <= zlen l -> Q (zsplice l o (zrep n v)) ->
  wp (memset l o v n) Q.
Proof.
  intros; unfold memset; destruct (Z.leb_spec 0 n); [|lia].
  apply wp_put; auto; rewrite zlen_zrep; lia.
Qed.
Lemma wp_memcpy dst doff src soff n (Q : list Z -> Prop) :
  0 <= doff -> 0 <= soff -> 0 <= n -> doff + n <= zlen dst -> soff + n <= zlen src ->
  Q (zsplice dst doff (zslice src soff n)) -> wp (memcpy dst doff src soff n) Q.
Proof.
  intros; unfold memcpy; apply wp_bind, wp_sub; auto.
  apply wp_put; auto; rewrite zlen_zslice; lia.
Qed.
Lemma wp_branch {A} c (m1 m2 : res A) Q :
  (c = true -> wp m1 Q) -> (c = false -> wp m2 Q) -> wp (branch c m1 m2) Q.
Proof. intros; unfold branch; apply wp_bind, wp_emit; destruct c; auto. Qed.
Lemma wp_assert c (Q : unit -> Prop) : c = true -> Q tt -> wp (assert_ c) Q.
Proof. intros -> ; apply wp_ret. Qed.
Lemma wp_i32 x (Q : Z -> Prop) : -2147483648 <= x < 2147483648 -> Q x -> wp (i32 x) Q.
Proof.
  intros; unfold i32; destruct (Z.leb_spec (-2147483648) x); [|lia];
  destruct (Z.ltb_spec x 2147483648); [|lia]; now apply wp_ret.
Qed.
Lemma wp_shl32 x n (Q : Z -> Prop) :
  0 <= n < 32 -> 0 <= x -> x * 2 ^ n < 2147483648 -> Q (x * 2 ^ n) -> wp (shl32 x n) Q.
Proof.
  intros; unfold shl32; rewrite Z.shiftl_mul_pow2 by lia.
  destruct (Z.leb_spec 0 n); [|lia]; destruct (Z.ltb_spec n 32); [|lia];
  destruct (Z.leb_spec 0 x); [|lia]; destruct (Z.ltb_spec (x * 2 ^ n) 2147483648); [|lia].
  now apply wp_ret.
Qed.
Lemma wp_shr32 x n (Q : Z -> Prop) :
  0 <= n < 32 -> Q (Z.shiftr x n) -> wp (shr32 x n) Q.
Proof.
  intros; unfold shr32; destruct (Z.leb_spec 0 n); [|lia]; destruct (Z.ltb_spec n 32); [|lia].
  now apply wp_ret.
Qed.
Lemma wp_shl64 x n (Q : Z -> Prop) :
  0 <= n < 64 -> Q (u64 (Z.shiftl x n)) -> wp (shl64 x n) Q.
Proof.
  intros; unfold shl64; destruct (Z.leb_spec 0 n); [|lia]; destruct (Z.ltb_spec n 64); [|lia].
  now apply wp_ret.
Qed.
Lemma wp_shr64 x n (Q : Z -> Prop) :
  0 <= n < 64 -> Q (Z.shiftr x n) -> wp (shr64 x n) Q.
Proof.
  intros; unfold shr64; destruct (Z.leb_spec 0 n); [|lia]; destruct (Z.ltb_spec n 64); [|lia].
  now apply wp_ret.
Qed.

Lemma wp_for_n {S} (I : Z -> S -> Prop) body step n : forall lo s,
  I lo s ->
  (forall k s', (k < n)%nat -> I (lo + Z.of_nat k * step) s' ->
     wp (body (lo + Z.of_nat k * step) s') (I (lo + Z.of_nat k * step + step))) ->
  wp (for_n n lo step body s) (I (lo + Z.of_nat n * step)).
Proof.
  induction n as [|n IH]; intros lo s H0 Hstep.
  - replace (lo + Z.of_nat 0 * step) with lo by lia; now apply wp_ret.
  - cbn [for_n]; apply wp_bind.
    pose proof (Hstep O s) as H1; cbn [Z.of_nat] in H1.
    replace (lo + 0 * step) with lo in H1 by lia.
    eapply wp_mono; [apply H1; [lia|exact H0]|].
    intros a Ha; cbv beta in Ha.
    eapply wp_mono; [apply (IH (lo + step) a Ha)|].
    + intros k s' Hk HI.
      specialize (Hstep (Datatypes.S k) s').
      replace (lo + Z.of_nat (Datatypes.S k) * step) with (lo + step + Z.of_nat k * step)
        in Hstep by lia.
      apply Hstep; [lia|exact HI].
    + intros b; now replace (lo + step + Z.of_nat n * step)
        with (lo + Z.of_nat (Datatypes.S n) * step) by lia.
Qed.

(** Counted loop with step 1. *)
Lemma wp_for {S} (I : Z -> S -> Prop) lo hi body (s : S) (Q : S -> Prop) :
  lo <= hi -> I lo s ->
  (forall i s', lo <= i < hi -> I i s' -> wp (body i s') (I (i + 1))) ->
  (forall s', I hi s' -> Q s') ->
  wp (for_ lo hi body s) Q.
Proof.
  intros Hle H0 Hstep Hend; unfold for_; apply wp_bind, wp_emit.
  eapply wp_mono; [apply (wp_for_n I)|]; [exact H0| |].
  - intros k s' Hk HI; apply Hstep; [lia|exact HI].
  - intros a; replace (lo + Z.of_nat (Z.to_nat (hi - lo)) * 1) with hi by lia; apply Hend.
Qed.

(** Counted loop with a step dividing the range. *)
Lemma wp_for_step {S} (I : Z -> S -> Prop) lo hi step n body (s : S) (Q : S -> Prop) :
  0 < step -> 0 <= n -> hi = lo + n * step -> I 0 s ->
  (forall k s', 0 <= k < n -> I k s' -> wp (body (lo + k * step) s') (I (k + 1))) ->
  (forall s', I n s' -> Q s') ->
  wp (for_step lo hi step body s) Q.
Proof.
  intros Hs Hn -> H0 Hstep Hend; unfold for_step; apply wp_bind, wp_emit.
  replace ((lo + n * step - lo + step - 1) / step) with n.
  2:{ replace (lo + n * step - lo + step - 1) with (n * step + (step - 1)) by lia.
      rewrite Z.div_add_l by lia; rewrite Z.div_small by lia; lia. }
  eapply wp_mono; [apply (wp_for_n (fun i s' => exists k, i = lo + k * step /\ I k s'))|].
  - exists 0; split; [lia|exact H0].
  - intros k s' Hk (k' & E & HI).
    assert (k' = Z.of_nat k) by nia; subst k'.
    eapply wp_mono; [apply Hstep; [lia|exact HI]|].
    intros a Ha; exists (Z.of_nat k + 1); split; [lia|exact Ha].
  - cbv beta; intros a (k' & E & HI); assert (k' = n) by nia; subst; auto.
Qed.

Lemma wp_loop {S} (I : S -> Prop) (mu : S -> nat) (body : S -> res (S * bool)) (Q : S -> Prop) : forall fuel s,
  I s -> (mu s < fuel)%nat ->
  (forall s, I s -> wp (body s) (fun r =>
     if snd r then I (fst r) /\ (mu (fst r) < mu s)%nat else Q (fst r))) ->
  wp (loop fuel body s) Q.
Proof.
  induction fuel as [|f IH]; intros s H0 Hmu Hstep; [lia|].
  cbn [loop]; apply wp_bind.
  eapply wp_mono; [apply (Hstep s H0)|].
  intros (s', go) Hr; cbn in Hr; apply wp_bind, wp_emit.
  destruct go.
  - destruct Hr as (HI & Hlt); apply IH; [exact HI|lia|exact Hstep].
  - now apply wp_ret.
Qed.

(** Determinism: read off the value. *)
Lemma wp_eq {A} (m : res A) v : wp m (fun a => a = v) -> exists t, m = Ok v t.
Proof. intros (a & t & -> & ->); eauto. Qed.
Lemma wp_det {A} (m : res A) v t Q : m = Ok v t -> wp m Q -> Q v.
Proof. intros E (a & t' & E' & H); congruence. Qed.
Lemma wp_and {A} (m : res A) P Q : wp m P -> wp m Q -> wp m (fun a => P a /\ Q a).
Proof. intros (a & t & -> & H) (a' & t' & E & H'); inversion E; subst; exists a', t'; auto. Qed.

(* ================================================================== *)
(** * Relational logic for traces *)

(** If both computations succeed, they produced the same trace and their
    values are related by [R]. *)
Definition low {A B} (m1 : res A) (m2 : res B) (R : A -> B -> Prop) : Prop :=
  forall a1 t1 a2 t2, m1 = Ok a1 t1 -> m2 = Ok a2 t2 -> t1 = t2 /\ R a1 a2.

Lemma low_ret {A B} (a : A) (b : B) (R : A -> B -> Prop) : R a b -> low (ret a) (ret b) R.
Proof. intros H a1 t1 a2 t2 E1 E2; inversion E1; inversion E2; subst; auto. Qed.
Lemma low_refl {A} (m : res A) (R : A -> A -> Prop) : (forall a, R a a) -> low m m R.
Proof. intros H a1 t1 a2 t2 E1 E2; rewrite E1 in E2; inversion E2; subst; auto. Qed.
Lemma low_bind {A B A' B'} (m1 : res A) (m2 : res B) (f1 : A -> res A') (f2 : B -> res B')
   (R : A -> B -> Prop) R' :
  low m1 m2 R -> (forall a b, R a b -> low (f1 a) (f2 b) R') ->
  low (bind m1 f1) (bind m2 f2) R'.
Proof.
  intros H Hf a1 t1 a2 t2 E1 E2; unfold bind in *.
  destruct m1 as [x tx|]; [|discriminate]; destruct m2 as [y ty|]; [|discriminate].
  destruct (H x tx y ty eq_refl eq_refl) as (-> & HR).
  destruct (f1 x) as [x' tx'|] eqn:Ex; [|discriminate];
  destruct (f2 y) as [y' ty'|] eqn:Ey; [|discriminate].
  inversion E1; inversion E2; subst.
  destruct (Hf x y HR _ _ _ _ Ex Ey) as (-> & HR'); auto.
Qed.
(** With functional information about both sides. *)
Lemma low_bind_wp {A B A' B'} (m1 : res A) (m2 : res B) (f1 : A -> res A') (f2 : B -> res B')
   (R : A -> B -> Prop) P1 P2 R' :
  low m1 m2 R -> wp m1 P1 -> wp m2 P2 ->
  (forall a b, R a b -> P1 a -> P2 b -> low (f1 a) (f2 b) R') ->
  low (bind m1 f1) (bind m2 f2) R'.
Proof.
  intros H (a & t & -> & Ha) (b & t' & -> & Hb) Hf.
  eapply low_bind with (R := fun x y => R x y /\ P1 x /\ P2 y).
  - intros a1 t1 a2 t2 E1 E2; destruct (H _ _ _ _ E1 E2); inversion E1; inversion E2; subst; auto.
  - intros x y (HR & ? & ?); auto.
Qed.
Lemma low_mono {A B} (m1 : res A) (m2 : res B) (R R' : A -> B -> Prop) :
  low m1 m2 R -> (forall a b, R a b -> R' a b) -> low m1 m2 R'.
Proof. intros H Hm a1 t1 a2 t2 E1 E2; destruct (H _ _ _ _ E1 E2); auto. Qed.
Lemma low_emit e : low (emit e) (emit e) (fun _ _ => True).
Proof. apply low_refl; auto. Qed.
Lemma low_rd l1 l2 i : low (rd l1 i) (rd l2 i) (fun _ _ => True).
Proof.
  intros a1 t1 a2 t2; unfold rd.
  destruct ((0 <=? i) && (i <? zlen l1)); [|discriminate];
  destruct ((0 <=? i) && (i <? zlen l2)); [|discriminate]; cbv zeta.
  destruct (znth l1 i <? 0); [discriminate|]; destruct (znth l2 i <? 0); [discriminate|].
  intros E1 E2; inversion E1; inversion E2; auto.
Qed.
Definition samelen (l1 l2 : list Z) : Prop := zlen l1 = zlen l2.
Lemma low_wr l1 l2 i v1 v2 : samelen l1 l2 -> low (wr l1 i v1) (wr l2 i v2) samelen.
Proof.
  intros H a1 t1 a2 t2; unfold wr.
  destruct ((0 <=? i) && (i <? zlen l1)); [|discriminate];
  destruct ((0 <=? i) && (i <? zlen l2)); [|discriminate].
  intros E1 E2; inversion E1; inversion E2; subst; split; auto.
  unfold samelen in *; now rewrite !zlen_zset.
Qed.
Lemma low_sub l1 l2 o n : low (sub l1 o n) (sub l2 o n) (fun a b => samelen a b /\ zlen a = n).
Proof.
  intros a1 t1 a2 t2; unfold sub.
  destruct ((0 <=? o) && (0 <=? n) && (o + n <=? zlen l1)) eqn:B1; [|discriminate];
  destruct ((0 <=? o) && (0 <=? n) && (o + n <=? zlen l2)) eqn:B2; [|discriminate].
  rewrite !andb_true_iff, !Z.leb_le in *.
  intros E1 E2; inversion E1; inversion E2; subst; split; auto.
  unfold samelen; rewrite !zlen_zslice by lia; auto.
Qed.
Lemma low_put l1 l2 o x1 x2 : samelen l1 l2 -> samelen x1 x2 ->
  low (put l1 o x1) (put l2 o x2) samelen.
Proof.
  intros H Hx a1 t1 a2 t2; unfold put, samelen in *.
  destruct ((0 <=? o) && (o + zlen x1 <=? zlen l1)) eqn:B1; [|discriminate];
  destruct ((0 <=? o) && (o + zlen x2 <=? zlen l2)) eqn:B2; [|discriminate].
  rewrite !andb_true_iff, !Z.leb_le in *.
  intros E1 E2; inversion E1; inversion E2; subst; rewrite Hx; split; auto.
  rewrite !zlen_zsplice by lia; auto.
Qed.
Lemma low_memset l1 l2 o v1 v2 n : samelen l1 l2 ->
  low (memset l1 o v1 n) (memset l2 o v2 n) samelen.
Proof.
  intros; unfold memset; destruct (Z.leb_spec 0 n); [|intros ? ? ? ?; discriminate].
  apply low_put; auto; unfold samelen; rewrite !zlen_zrep; auto.
Qed.
Lemma low_memcpy d1 d2 doff s1 s2 soff n : samelen d1 d2 ->
  low (memcpy d1 doff s1 soff n) (memcpy d2 doff s2 soff n) samelen.
Proof.
  intros; unfold memcpy; eapply low_bind; [apply low_sub|].
  intros a b (Ha & _); now apply low_put.
Qed.
Lemma low_branch {A B} c1 c2 (m1 m2 : res A) (n1 n2 : res B) R :
  c1 = c2 -> (c1 = true -> low m1 n1 R) -> (c1 = false -> low m2 n2 R) ->
  low (branch c1 m1 m2) (branch c2 n1 n2) R.
Proof.
  intros -> H1 H2; unfold branch; eapply low_bind; [apply low_emit|].
  intros _ _ _; destruct c2; auto.
Qed.
Lemma low_i32 x y : low (i32 x) (i32 y) (fun _ _ => True).
Proof.
  intros a1 t1 a2 t2; unfold i32, ret.
  destruct (_ && _); [|discriminate]; destruct (_ && _); [|discriminate].
  intros E1 E2; inversion E1; inversion E2; auto.
Qed.
Lemma low_shl32 x y n m : low (shl32 x n) (shl32 y m) (fun _ _ => True).
Proof.
  intros a1 t1 a2 t2; unfold shl32, ret.
  destruct (_ && _); [|discriminate]; destruct (_ && _); [|discriminate].
  intros E1 E2; inversion E1; inversion E2; auto.
Qed.
Lemma low_shr32 x y n m : low (shr32 x n) (shr32 y m) (fun _ _ => True).
Proof.
  intros a1 t1 a2 t2; unfold shr32, ret.
  destruct (_ && _); [|discriminate]; destruct (_ && _); [|discriminate].
  intros E1 E2; inversion E1; inversion E2; auto.
Qed.
Lemma low_shl64 x y n m : low (shl64 x n) (shl64 y m) (fun _ _ => True).
Proof.
  intros a1 t1 a2 t2; unfold shl64, ret.
  destruct (_ && _); [|discriminate]; destruct (_ && _); [|discriminate].
  intros E1 E2; inversion E1; inversion E2; auto.
Qed.
Lemma low_shr64 x y n m : low (shr64 x n) (shr64 y m) (fun _ _ => True).
Proof.
  intros a1 t1 a2 t2; unfold shr64, ret.
  destruct (_ && _); [|discriminate]; destruct (_ && _); [|discriminate].
  intros E1 E2; inversion E1; inversion E2; auto.
Qed.
Lemma low_assert c1 c2 : low (assert_ c1) (assert_ c2) (fun _ _ => True).
Proof.
  intros a1 t1 a2 t2; unfold assert_, ret.
  destruct c1; [|discriminate]; destruct c2; [|discriminate].
  intros E1 E2; inversion E1; inversion E2; auto.
Qed.
Lemma low_for_n {S T} (R : S -> T -> Prop) b1 b2 step n : forall i s1 s2,
  R s1 s2 ->
  (forall i s1 s2, R s1 s2 -> low (b1 i s1) (b2 i s2) R) ->
  low (for_n n i step b1 s1) (for_n n i step b2 s2) R.
Proof.
  induction n as [|n IH]; intros i s1 s2 H0 H; cbn [for_n].
  - now apply low_ret.
  - eapply low_bind; [apply H; exact H0|]; intros; apply IH; auto.
Qed.
Lemma low_for {S T} (R : S -> T -> Prop) lo hi b1 b2 s1 s2 :
  R s1 s2 ->
  (forall i s1 s2, R s1 s2 -> low (b1 i s1) (b2 i s2) R) ->
  low (for_ lo hi b1 s1) (for_ lo hi b2 s2) R.
Proof.
  intros; unfold for_; eapply low_bind; [apply low_emit|]; intros; apply low_for_n; auto.
Qed.
Lemma low_for_step {S T} (R : S -> T -> Prop) lo hi step b1 b2 s1 s2 :
  R s1 s2 ->
  (forall i s1 s2, R s1 s2 -> low (b1 i s1) (b2 i s2) R) ->
  low (for_step lo hi step b1 s1) (for_step lo hi step b2 s2) R.
Proof.
  intros; unfold for_step; eapply low_bind; [apply low_emit|]; intros; apply low_for_n; auto.
Qed.
Lemma low_loop {S T} (R : S -> T -> Prop) (b1 : S -> res (S * bool))
    (b2 : T -> res (T * bool)) fuel : forall s1 s2,
  R s1 s2 ->
  (forall s1 s2, R s1 s2 -> low (b1 s1) (b2 s2)
       (fun r1 r2 => R (fst r1) (fst r2) /\ snd r1 = snd r2)) ->
  low (loop fuel b1 s1) (loop fuel b2 s2) R.
Proof.
  induction fuel as [|f IH]; intros s1 s2 H0 H; cbn [loop].
  - intros ? ? ? ?; discriminate.
  - eapply low_bind; [apply H; exact H0|].
    intros (s1', g1) (s2', g2) (HR & Hg); cbn [fst snd] in HR, Hg; subst g2.
    eapply low_bind; [apply low_emit|]; intros _ _ _.
    destruct g1; [apply IH; auto|now apply low_ret].
Qed.
Lemma low_trace {A B} (m1 : res A) (m2 : res B) R a1 t1 a2 t2 :
  low m1 m2 R -> m1 = Ok a1 t1 -> m2 = Ok a2 t2 -> t1 = t2.
Proof. intros H E1 E2; now destruct (H _ _ _ _ E1 E2). Qed.

(** [returns m v]: [m] terminates without any undefined behaviour, failed
    assertion or exhausted loop bound, and its value is [v]. *)
Definition returns {A} (m : res A) (v : A) : Prop := exists t, m = Ok v t.
Lemma wp_returns {A} (m : res A) v : wp m (fun a => a = v) -> returns m v.
Proof. intros (a & t & -> & ->); now exists t. Qed.
Lemma returns_wp {A} (m : res A) v : returns m v -> wp m (fun a => a = v).
Proof. intros (t & ->); now apply wp_ok. Qed.
Lemma returns_inj {A} (m : res A) v w : returns m v -> returns m w -> v = w.
Proof. intros (t & ->) (t' & E); congruence. Qed.
