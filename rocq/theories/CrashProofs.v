(** The order in which a thread program of ConcKem.v writes its outputs.

    Every byte of an output has a rank.  A program is [rising] if, run alone, its stores go to bytes
    of higher and higher ranks: those that have been passed are not touched again.  From rank [lim] on
    a byte is passed when it is stored, so that it is stored at most once; below, a byte may be stored
    several times, but always with some of the top bits of what it will be at the end, and zeros. *)
From Verif Require Import CSem Params Util Fips202 Macrify Kem Conc ConcProofs ConcKem PackProgProofs ConcKemProofs.

Section Rank.
Variables (rk : Z -> Z) (lim : Z).
Fixpoint rising {A} (r : Z) (p : prog A) (mem : list Z) (g : Z) : Prop :=
  match p with
  | Ret _ | Fault _ => True
  | Ld a k => in_mem mem a = true -> rising r (k (znth mem a)) mem g
  | St a v k => in_mem mem a = true -> r <= rk a /\ top_bits v (znth (snd (fst (solo k (zset mem a v) g))) a) /\
      exists r', r <= r' /\ (lim <= rk a -> rk a < r') /\ rising r' k (zset mem a v) g
  | Gld k => rising r (k g) mem g
  | Gst v k => rising r k mem v
  end.

(** n actions of a program alone. *)
Fixpoint after {A} (n : nat) (p : prog A) (mem : list Z) (g : Z) : prog A * list Z * Z :=
  match n with O => (p, mem, g) | Datatypes.S n => let '(p', mem', g') := step p mem g in after n p' mem' g' end.

Lemma solo_step {A} (p : prog A) mem g : solo (fst (fst (step p mem g))) (snd (fst (step p mem g))) (snd (step p mem g)) = solo p mem g.
Proof. destruct p as [a|e|a k|a v k|k|v k]; cbn; try reflexivity; destruct (in_mem mem a); reflexivity. Qed.
Lemma after_solo {A} n : forall (p : prog A) mem g, solo (fst (fst (after n p mem g))) (snd (fst (after n p mem g))) (snd (after n p mem g)) = solo p mem g.
Proof.
  induction n as [|n IH]; intros p mem g; cbn [after]; [reflexivity|].
  pose proof (solo_step p mem g) as E. destruct (step p mem g) as [[p' m'] g']. cbn [fst snd] in E. rewrite IH. exact E.
Qed.
Lemma after_last {A} n : forall (p : prog A) mem g, after (Datatypes.S n) p mem g = let '(p', m', g') := after n p mem g in step p' m' g'.
Proof.
  induction n as [|n IH]; intros p mem g; [cbn; destruct (step p mem g) as [[? ?] ?]; reflexivity|].
  change (after (Datatypes.S (Datatypes.S n)) p mem g) with (let '(p', m', g') := step p mem g in after (Datatypes.S n) p' m' g').
  change (after (Datatypes.S n) p mem g) with (let '(p', m', g') := step p mem g in after n p' m' g').
  destruct (step p mem g) as [[p' m'] g']. apply IH.
Qed.

(** What a rising program has stored at its end agrees, below its rank, with what was there. *)
Lemma rising_solo {A} (p : prog A) : forall r mem g, rising r p mem g -> forall a, rk a < r -> znth (snd (fst (solo p mem g))) a = znth mem a.
Proof.
  induction p as [x|e|o k IH|o v k IH|k IH|v k IH]; intros r mem g H a Ha; cbn [rising solo] in *.
  - reflexivity.
  - reflexivity.
  - destruct (in_mem mem o); [|reflexivity]. eapply IH; eauto.
  - destruct (in_mem mem o) eqn:E; [|reflexivity]. destruct (H eq_refl) as (H1 & _ & r' & Hr & _ & H2). apply in_mem_true in E.
    rewrite (IH r'); [|exact H2|lia]. apply znth_zset_ne; [lia|]. intros ->. lia.
  - eapply IH; eauto.
  - eapply IH; eauto.
Qed.
Lemma rising_mono {A} (p : prog A) : forall r1 r2 mem g, r1 <= r2 -> rising r2 p mem g -> rising r1 p mem g.
Proof.
  induction p as [x|e|o k IH|o v k IH|k IH|v k IH]; intros r1 r2 mem g Hr H; cbn [rising] in *; eauto.
  intros E. destruct (H E) as (H1 & H2 & r' & H3 & H4 & H5). split; [lia|]. split; [exact H2|]. exists r'. split; [lia|]. auto.
Qed.
(** Wherever it is interrupted, there is a rank such that the bytes below it are as at the end and
    those above it, from lim on, as at the start; every byte is as at the start or has some of the
    top bits of the end. *)
Lemma rising_after {A} n : forall (p : prog A) r mem g, rising r p mem g ->
  exists r', r <= r' /\ (forall a, rk a < r' -> znth (snd (fst (after n p mem g))) a = znth (snd (fst (solo p mem g))) a) /\
    (forall a, lim <= rk a -> r' <= rk a -> znth (snd (fst (after n p mem g))) a = znth mem a) /\
    (forall a, rk a < r -> znth (snd (fst (after n p mem g))) a = znth mem a) /\
    forall a, znth (snd (fst (after n p mem g))) a = znth mem a \/ top_bits (znth (snd (fst (after n p mem g))) a) (znth (snd (fst (solo p mem g))) a).
Proof.
  induction n as [|n IH]; intros p r mem g H; cbn [after].
  - exists r. split; [lia|]. split; [|cbn [fst snd]; auto]. intros a Ha. cbn [fst snd]. rewrite (rising_solo p r mem g H a Ha). reflexivity.
  - pose proof (solo_step p mem g) as Es. destruct (step p mem g) as [[p' m'] g'] eqn:E. cbn [fst snd] in Es.
    assert (K : exists r1, r <= r1 /\ rising r1 p' m' g' /\ (forall a, rk a < r -> znth m' a = znth mem a) /\ (forall a, lim <= rk a -> r1 <= rk a -> znth m' a = znth mem a) /\
       forall a, znth m' a = znth mem a \/ top_bits (znth m' a) (znth (snd (fst (solo p mem g))) a)).
    { destruct p as [x|e|o k|o v k|k|v k]; cbn [step rising solo] in E, H |- *; try (destruct (in_mem mem o) eqn:Ei).
      all: try (injection E as <- <- <-; exists r; split; [lia|]; split; [now cbn|]; split; [|split]; auto; fail).
      - injection E as <- <- <-. exists r. split; [lia|]. split; [auto|]. split; [|split]; auto.
      - injection E as <- <- <-. destruct (H eq_refl) as (H1 & H2 & r' & H3 & H4 & H5). apply in_mem_true in Ei. exists r'. split; [lia|]. split; [exact H5|].
        split; [|split].
        + intros a Ha. apply znth_zset_ne; [lia|]; intros ->; lia.
        + intros a Hl Ha. apply znth_zset_ne; [lia|]. intros ->. specialize (H4 Hl). lia.
        + intros a. destruct (Z.eq_dec o a) as [<-|Hn]; [right|left; apply znth_zset_ne; [lia|exact Hn]].
          rewrite znth_zset_eq by lia. exact H2. }
    destruct K as (r1 & Hr & H1 & H2 & H3 & H4). destruct (IH p' r1 m' g' H1) as (r' & Hr' & Q1 & Q2 & Q3 & Q4). rewrite Es in Q1, Q4. exists r'. split; [lia|]. split; [exact Q1|]. split; [|split].
    + intros a Hl Ha. rewrite Q2 by lia. apply H3; lia.
    + intros a Ha. rewrite Q3 by lia. apply H2. exact Ha.
    + intros a. destruct (Q4 a) as [->|T]; [apply H4|right; exact T].
Qed.

Lemma solo_assoc {A B D} (p : prog A) (f : A -> prog B) (h : B -> prog D) mem g : solo (pbind (pbind p f) h) mem g = solo (pbind p (fun x => pbind (f x) h)) mem g.
Proof. rewrite !solo_bind. destruct (solo p mem g) as [[[x tx|e] mx] gx]; [|reflexivity]. rewrite !solo_bind. reflexivity. Qed.
Lemma rising_assoc {A B D} (p : prog A) (f : A -> prog B) (h : B -> prog D) : forall r mem g,
  rising r (pbind p (fun x => pbind (f x) h)) mem g -> rising r (pbind (pbind p f) h) mem g.
Proof.
  induction p as [x|e|o k IH|o v k IH|k IH|v k IH]; intros r mem g H; cbn [pbind rising] in *; auto.
  intros E. destruct (H E) as (H1 & H2 & r' & H3 & H4 & H5). split; [exact H1|]. split; [rewrite solo_assoc; exact H2|]. exists r'. auto.
Qed.
Lemma rising_loc {A B} (m : res A) (h : A -> prog B) r mem g : (forall a t, m = Ok a t -> rising r (h a) mem g) -> rising r (pbind (loc m) h) mem g.
Proof. destruct m as [a t|e]; cbn; [intros H; eapply H; reflexivity|auto]. Qed.
Lemma rising_ldn {B} n : forall a (h : list Z -> prog B) r mem g, 0 <= a -> a + Z.of_nat n <= zlen mem ->
  rising r (h (zslice mem a (Z.of_nat n))) mem g -> rising r (pbind (ldn a n) h) mem g.
Proof.
  induction n as [|n IH]; intros a h r mem g Ha Hl H; cbn [ldn pbind].
  - exact H.
  - cbn [rising]. intros _. apply rising_assoc. apply IH; [lia|lia|]. cbn [pbind].
    replace (znth mem a :: zslice mem (a + 1) (Z.of_nat n)) with (zslice mem a (Z.of_nat (Datatypes.S n))); [exact H|].
    apply list_ext; [rewrite zlen_cons, !zlen_zslice by lia; lia|]. rewrite zlen_zslice by lia. intros i Hi. rewrite znth_zslice by lia.
    destruct (Z.eq_dec i 0) as [->|Hn]; [rewrite znth_cons0; f_equal; lia|]. rewrite znth_consS by lia. rewrite znth_zslice by lia. f_equal. lia.
Qed.
Lemma top_same v : top_bits v v.
Proof. exists 0. split; [lia|]. change (2 ^ 0) with 1. now rewrite Z.div_1_r, Z.mul_1_r. Qed.
Lemma rising_stn {B} l : forall a (h : unit -> prog B) r mem g, 0 <= a -> a + zlen l <= zlen mem -> (forall i, a <= i < a + zlen l -> rk i = r + (i - a)) ->
  rising (r + zlen l) (h tt) (zsplice mem a l) g -> rising r (pbind (stn a l) h) mem g.
Proof.
  induction l as [|v l IH]; intros a h r mem g Ha Hl Hr H; cbn [stn pbind].
  - change (zlen []) with 0 in *. rewrite Z.add_0_r in H, Hl. rewrite zsplice_nil in H by lia. exact H.
  - rewrite zlen_cons in *. pose proof (zlen_nonneg l). cbn [rising]. intros _. assert (E : rk a = r) by (rewrite Hr; lia).
    assert (K : rising (r + 1) (pbind (stn (a + 1) l) h) (zset mem a v) g).
    { apply IH; rewrite ?zlen_zset; try lia.
      + intros i Hi. rewrite Hr; lia.
      + replace (r + 1 + zlen l) with (r + (1 + zlen l)) by lia.
        replace (zsplice (zset mem a v) (a + 1) l) with (zsplice mem a (v :: l)); [exact H|]. symmetry.
        apply list_ext; [rewrite !zlen_zsplice; rewrite ?zlen_zset, ?zlen_cons; lia|].
        intros i Hi. rewrite !znth_zsplice by (rewrite ?zlen_zset, ?zlen_cons; lia). rewrite zlen_cons.
        destruct (Z.eq_dec a i) as [<-|Hn].
        * destruct (Z.leb_spec (a + 1) a); [lia|]. cbn [andb]. rewrite znth_zset_eq by lia.
          destruct (Z.leb_spec a a), (Z.ltb_spec a (a + (1 + zlen l))); try lia. cbn [andb]. rewrite Z.sub_diag. reflexivity.
        * rewrite znth_zset_ne by lia.
          destruct (Z.leb_spec (a + 1) i), (Z.ltb_spec i (a + 1 + zlen l)), (Z.leb_spec a i), (Z.ltb_spec i (a + (1 + zlen l))); cbn [andb]; try lia; try reflexivity.
          rewrite znth_consS by lia. f_equal. lia. }
    split; [lia|]. split.
    + rewrite (rising_solo _ _ _ _ K) by lia. rewrite znth_zset_eq by lia. apply top_same.
    + exists (r + 1). split; [lia|]. split; [lia|exact K].
Qed.
(** A block that may store its bytes several times, all below lim. *)
Lemma rising_inside {A B} (R blk : Z -> Prop) (fin : Z -> Z) r g (p : prog A) (h : A -> prog B) Q : forall mem,
  inside R (fun a v => r <= rk a < lim /\ blk a /\ top_bits v (fin a)) p mem Q ->
  (forall x m, Q x m -> rising r (h x) m g /\ forall a, blk a -> znth (snd (fst (solo (h x) m g))) a = fin a) -> rising r (pbind p h) mem g.
Proof.
  induction p as [x|e|o k IH|o v k IH|k IH|v k IH]; intros mem H HQ; cbn [inside pbind rising] in *; try contradiction.
  - apply HQ, H.
  - intros _. apply IH; [apply H|exact HQ].
  - intros _. destruct H as (_ & (H1 & Hb & Ht) & H2). split; [lia|]. split.
    + destruct (inside_solo _ _ _ _ _ H2) as (x & m & S & Hx). rewrite solo_bind, S. unfold ret. destruct (HQ x m Hx) as (_ & ->); assumption.
    + exists r. split; [lia|]. split; [lia|]. apply IH; assumption.
Qed.

(** ** Refinement, with the ranks *)
Definition refC {A B} (r : Z) (m : res A) (b : prog B) (mem : list Z) (Q : A -> B -> list Z -> Prop) : Prop :=
  forall a t, m = Ok a t -> forall g, rising r b mem g /\ exists bv mem' g', solo b mem g = (ret bv, mem', g') /\ Q a bv mem'.
Lemma C_ret {A B} r (a : A) (b : B) mem (Q : A -> B -> list Z -> Prop) : Q a b mem -> refC r (ret a) (Ret b) mem Q.
Proof. intros H a' t E g. injection E as <- _. split; [exact I|]. exists b, mem, g. split; [reflexivity|exact H]. Qed.
Lemma C_assoc {A A1 A2 B} r (m : res A) (f : A -> res A1) (h : A1 -> res A2) (b : prog B) mem (Q : A2 -> B -> list Z -> Prop) :
  refC r (bind m (fun x => bind (f x) h)) b mem Q -> refC r (bind (bind m f) h) b mem Q.
Proof.
  intros H a t E. apply bind_ok in E. destruct E as (x & t1 & t2 & E1 & E2). apply bind_ok in E1. destruct E1 as (y & t3 & t4 & E3 & E4).
  eapply H. unfold bind. rewrite E3, E4, E2. reflexivity.
Qed.
Lemma C_unassoc {A A1 A2 B} r (m : res A) (b : prog A1) (f : A1 -> prog A2) (h : A2 -> prog B) mem (Q : A -> B -> list Z -> Prop) :
  refC r m (pbind b (fun x => pbind (f x) h)) mem Q -> refC r m (pbind (pbind b f) h) mem Q.
Proof.
  intros H a t Em g. destruct (H a t Em g) as (O & bv & mem' & g' & S & HQ). split; [apply rising_assoc, O|].
  exists bv, mem', g'. split; [|exact HQ]. rewrite <- S, !solo_bind. destruct (solo b mem g) as [[[x tx|e] mx] gx]; [|reflexivity]. rewrite !solo_bind. reflexivity.
Qed.
Lemma C_loc {A A' B'} r (m : res A) (f : A -> res A') (h : A -> prog B') mem (P : A -> Prop) (Q' : A' -> B' -> list Z -> Prop) :
  pc m P -> (forall a, P a -> refC r (f a) (h a) mem Q') -> refC r (bind m f) (pbind (loc m) h) mem Q'.
Proof.
  intros HP HF a' t E g. apply bind_ok in E. destruct E as (a & t1 & t2 & E1 & E2). rewrite E1. cbn [loc pbind].
  exact (HF a (HP a t1 E1) a' t2 E2 g).
Qed.
Lemma C_loc0 {A A' B'} r (m : res A) (f : A -> res A') (h : A -> prog B') mem (Q' : A' -> B' -> list Z -> Prop) :
  (forall a, refC r (f a) (h a) mem Q') -> refC r (bind m f) (pbind (loc m) h) mem Q'.
Proof. intros HF. eapply C_loc; [apply pc_any|auto]. Qed.
Lemma C_load {A' B'} r o n (f : list Z -> res A') (h : list Z -> prog B') mem (Q' : A' -> B' -> list Z -> Prop) :
  (forall x, zlen x = n -> refC r (f x) (h x) mem Q') -> refC r (bind (sub mem o n) f) (pbind (load o n) h) mem Q'.
Proof.
  intros HF a' t E g. apply bind_ok in E. destruct E as (a & t1 & t2 & E1 & E2). apply pc_sub in E1. destruct E1 as (L & H1 & H2 & H3 & ->).
  destruct (HF _ L a' t2 E2 g) as (O & bv & mem' & g' & S & HQ). split.
  - unfold load. destruct (Z.leb_spec 0 n); [|lia]. apply rising_ldn; rewrite ?Z2Nat.id by lia; assumption.
  - exists bv, mem', g'. split; [|exact HQ]. rewrite solo_bind, solo_load by lia. exact S.
Qed.
Lemma C_store {A' B'} r o x (f : list Z -> res A') (h : unit -> prog B') mem (Q' : A' -> B' -> list Z -> Prop) :
  (forall i, o <= i < o + zlen x -> rk i = r + (i - o)) -> (forall mem', refC (r + zlen x) (f mem') (h tt) mem' Q') -> refC r (bind (put mem o x) f) (pbind (store o x) h) mem Q'.
Proof.
  intros HW HF a' t E g. apply bind_ok in E. destruct E as (a & t1 & t2 & E1 & E2). unfold put in E1. destruct (Z.leb_spec 0 o); [|discriminate]. destruct (Z.leb_spec (o + zlen x) (zlen mem)); [|discriminate].
  cbn [andb] in E1. injection E1 as <- _. destruct (HF _ a' t2 E2 g) as (O & bv & mem' & g' & S & HQ). split.
  - apply rising_stn; assumption.
  - exists bv, mem', g'. split; [|exact HQ]. rewrite solo_bind, solo_store by lia. exact S.
Qed.
Lemma C_shake {A' B'} P r r' o n inp il (f : list Z -> res A') (h : unit -> prog B') mem (Q' : A' -> B' -> list Z -> Prop) :
  (forall i, o <= i < o + n -> rk i = r + (i - o)) -> r' = r + n -> (forall mem', refC r' (f mem') (h tt) mem' Q') ->
  refC r (bind (shake_to P mem o n inp il) f) (pbind (shake_to_p P o n inp il) h) mem Q'.
Proof.
  intros HW -> HF. unfold shake_to, shake_to_p. apply C_assoc, C_unassoc. apply C_load. intros x Hx.
  apply C_assoc, C_unassoc. eapply C_loc; [apply shake_len|]. intros y Hy. cbv beta in Hy. assert (E : zlen y = n) by lia. apply C_store; rewrite E; assumption.
Qed.
Lemma C_pack {A' B'} r r' o n inp il lsb (f : list Z -> res A') (h : unit -> prog B') mem (Q' : A' -> B' -> list Z -> Prop) :
  (forall i, o <= i < o + n -> rk i = r + (i - o)) -> r' = r + n -> r' <= lim -> (forall mem', refC r' (f mem') (h tt) mem' Q') ->
  refC r (bind (sub mem o n) (fun b => bind (frodo_pack b n inp il lsb) (fun b => bind (put mem o b) f))) (pbind (pack_to_p o n inp il lsb) h) mem Q'.
Proof.
  intros HW -> Hlim HF a t E g. apply bind_ok in E. destruct E as (x & t1 & t2 & E1 & E). apply pc_sub in E1. destruct E1 as (Lx & H1 & H2 & H3 & _).
  apply bind_ok in E. destruct E as (y & t3 & t4 & E2 & E). apply bind_ok in E. destruct E as (mem1 & t5 & t6 & E3 & E).
  destruct (pack_inside (fun _ => True) (fun a v => r <= rk a < lim /\ o <= a < o + n /\ top_bits v (znth y (a - o))) mem o n inp il lsb x y t3 H1 H2 H3 Lx E2) as (Ly & HI).
  { auto. } { intros k v Hk Hv. rewrite HW by lia. split; [lia|]. split; [lia|]. replace (o + k - o) with k by lia. exact Hv. }
  unfold put in E3. destruct (_ && _); [|discriminate]. injection E3 as <- _.
  destruct (HF _ a t6 E g) as (O & bv & mem' & g' & S' & HQ). split.
  - apply (rising_inside (fun _ => True) (fun a => o <= a < o + n) (fun a => znth y (a - o)) r g _ h _ mem HI). intros u m ->. destruct u. split.
    + apply (rising_mono _ r (r + n)); [lia|exact O].
    + intros b Hb. rewrite (rising_solo _ _ _ _ O) by (rewrite HW; lia). rewrite znth_zsplice by lia.
      destruct (Z.leb_spec o b), (Z.ltb_spec b (o + zlen y)); try lia. reflexivity.
  - destruct (inside_solo _ _ _ _ _ HI) as (u & m & S & ->). destruct u. exists bv, mem', g'. split; [|exact HQ]. rewrite solo_bind, S. exact S'.
Qed.
Lemma C_memcpy_out {A' B'} r r' src so d n (f : list Z -> res A') (h : unit -> prog B') mem (Q' : A' -> B' -> list Z -> Prop) :
  (forall i, d <= i < d + n -> rk i = r + (i - d)) -> r' = r + n -> (forall mem', refC r' (f mem') (h tt) mem' Q') ->
  refC r (bind (memcpy mem d src so n) f) (pbind (loc (sub src so n)) (fun x => pbind (store d x) h)) mem Q'.
Proof.
  intros HW -> HF. unfold memcpy. apply C_assoc. eapply C_loc; [apply pc_sub|]. cbv beta. intros x (L & _). apply C_store; rewrite L; [exact HW|exact HF].
Qed.
Lemma C_memcpy_from {A' B'} r dst d so n (f : list Z -> res A') (h : list Z -> prog B') mem (Q' : A' -> B' -> list Z -> Prop) :
  (forall x, refC r (f x) (h x) mem Q') ->
  refC r (bind (memcpy dst d mem so n) f) (pbind (load so n) (fun x => pbind (loc (put dst d x)) h)) mem Q'.
Proof. intros HF. unfold memcpy. apply C_assoc. apply C_load. intros x _. apply C_loc0. exact HF. Qed.
Lemma C_memcpy_in {A' B'} r r' d so n (f : list Z -> res A') (h : unit -> prog B') mem (Q' : A' -> B' -> list Z -> Prop) :
  (forall i, d <= i < d + n -> rk i = r + (i - d)) -> r' = r + n -> (forall mem', refC r' (f mem') (h tt) mem' Q') ->
  refC r (bind (memcpy_in mem d so n) f)
    (pbind (if (d + n <=? so) || (so + n <=? d) then pbind (load so n) (fun x => store d x) else Fault UB_overlap) h) mem Q'.
Proof.
  intros HW -> HF. unfold memcpy_in. destruct (_ || _); [|intros a t E; discriminate]. unfold memcpy. apply C_assoc, C_unassoc.
  apply C_load. intros x L. apply C_store; rewrite L; [exact HW|exact HF].
Qed.
Lemma C_aligned {A' B'} r c o n (f : list Z -> res A') (h : list Z -> prog B') mem (Q' : A' -> B' -> list Z -> Prop) :
  (forall x, refC r (f x) (h x) mem Q') ->
  refC r (bind (if c : bool then sub mem o n else Err UB_align) f) (pbind (if c then load o n else Fault UB_align) h) mem Q'.
Proof. intros HF. destruct c; [|intros a t E; discriminate]. apply C_load; auto. Qed.
Lemma C_state {A A' B'} C me r (m : res A) (f : A -> res A') (h : A -> prog B') mem (Q' : A' -> B' -> list Z -> Prop) :
  (forall a, refC r (f a) (h a) mem Q') -> refC r (bind m f) (pbind (with_state C me m) h) mem Q'.
Proof.
  intros HF. unfold with_state. destruct (uses_state C); [|apply C_loc0; exact HF].
  intros a' t E g. destruct (C_loc0 r m f h mem Q' HF a' t E me) as (O & bv & mem' & g' & S & HQ). cbn [pbind rising solo]. rewrite Z.eqb_refl.
  split; [exact O|]. exists bv, mem', g'. split; [exact S|exact HQ].
Qed.
End Rank.

(** ** The three functions *)
(** The rank of a byte of an output: outputs one after the other. *)
Fixpoint place (base : Z) (l : list (Z * Z)) (a : Z) : Z :=
  match l with [] => -1 | (o, n) :: l => if (o <=? a) && (a <? o + n) then base + (a - o) else place (base + n) l a end.

Section Funs.
Variables (C : config) (me : Z).
Let P := cP C.
Hypothesis HSZ : 0 < pN P /\ 0 < pCB P /\ 0 < pD P * pN P.
Ltac rank := let i := fresh in let Hi := fresh in intros i Hi; let Hs := fresh in pose proof (size_eqs C) as Hs; fold P in Hs; cbn [place];
  repeat match goal with |- context [(?x <=? ?y) && (?z <? ?w)] => destruct (Z.leb_spec x y), (Z.ltb_spec z w); cbn [andb]; cbv iota; try lia end.
Ltac cstep := first
  [ eapply C_pack; [rank|reflexivity|let Hs := fresh in pose proof (size_eqs C) as Hs; fold P in Hs; lia|intros ?]
  | eapply C_memcpy_out; [rank|reflexivity|intros ?]
  | apply C_memcpy_from; intros ?
  | eapply C_memcpy_in; [rank|reflexivity|intros ?]
  | apply C_aligned; intros ?
  | eapply C_shake; [rank|reflexivity|intros ?]
  | apply C_load; intros ? _
  | apply C_state; intros ?
  | apply C_loc0; intros ?
  | apply C_ret; split; reflexivity ].
Ltac call := repeat (match goal with |- refC _ _ _ (match ?x with (_, _) => _ end) _ _ _ => destruct x end || cstep).

Lemma keypair_order rb mem pk sk : pk + pkBytes P <= sk \/ sk + skBytes P <= pk ->
  refC (place 0 [(pk, pkBytes P); (sk, skBytes P)]) (pkBytes P) 0 (crypto_kem_keypair C rb mem pk sk) (keypair_p C me rb pk sk) mem same_end.
Proof. intros HD. unfold crypto_kem_keypair, keypair_p. cbv zeta. fold P. call. Qed.
Lemma enc_order rb mem ct ss pk : ct + ctBytes P <= ss \/ ss + pCB P <= ct ->
  refC (place 0 [(ct, ctBytes P); (ss, pCB P)]) (ctBytes P) 0 (crypto_kem_enc C rb mem ct ss pk) (enc_p C me rb ct ss pk) mem same_end.
Proof. intros HD. unfold crypto_kem_enc, enc_p, enc_rest. cbv zeta. fold P. call. Qed.
Lemma dec_order mem ss ct sk :
  refC (place 0 [(ss, pCB P)]) 0 0 (crypto_kem_dec C mem ss ct sk) (dec_p C me ss ct sk) mem same_end.
Proof. unfold crypto_kem_dec, dec_p. cbv zeta. fold P. call. Qed.
End Funs.
