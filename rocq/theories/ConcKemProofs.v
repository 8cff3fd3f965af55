(** The thread programs of ConcKem.v do, alone, what Kem.v says, and stay within their
    footprint. *)
From Verif Require Import CSem Params Util Fips202 Macrify Kem Conc ConcProofs ConcKem PackProgProofs.

(** ** Partial correctness: properties of the value, if there is one *)
Definition pc {A} (m : res A) (Q : A -> Prop) : Prop := forall a t, m = Ok a t -> Q a.
Lemma pc_any {A} (m : res A) : pc m (fun _ => True).
Proof. intros a t E; exact I. Qed.
Lemma pc_ret {A} (a : A) (Q : A -> Prop) : Q a -> pc (ret a) Q.
Proof. intros H b t E; injection E as <- _; exact H. Qed.
Lemma pc_mono {A} (m : res A) (Q Q' : A -> Prop) : pc m Q -> (forall a, Q a -> Q' a) -> pc m Q'.
Proof. intros H HQ a t E; eauto. Qed.
Lemma bind_ok {A B} (m : res A) (f : A -> res B) b t : bind m f = Ok b t -> exists a t1 t2, m = Ok a t1 /\ f a = Ok b t2.
Proof.
  unfold bind. destruct m as [a t1|]; [|discriminate]. destruct (f a) as [b' t2|] eqn:E; [|discriminate].
  intros H; injection H as <- _. exists a, t1, t2. auto.
Qed.
Lemma pc_bind {A B} (m : res A) (f : A -> res B) Q Q' : pc m Q -> (forall a, Q a -> pc (f a) Q') -> pc (bind m f) Q'.
Proof. intros H HF b t E. apply bind_ok in E. destruct E as (a & t1 & t2 & E1 & E2). eapply HF; eauto. Qed.
Lemma pc_skip {A B} (m : res A) (f : A -> res B) Q' : (forall a, pc (f a) Q') -> pc (bind m f) Q'.
Proof. intros HF. eapply pc_bind; [apply pc_any|auto]. Qed.
Lemma pc_branch {A} c (m1 m2 : res A) Q : pc m1 Q -> pc m2 Q -> pc (branch c m1 m2) Q.
Proof. intros H1 H2. unfold branch. apply pc_skip. intros _. destruct c; auto. Qed.
Lemma pc_for_n {S} n i st (body : Z -> S -> res S) s (I : S -> Prop) : I s -> (forall i s, I s -> pc (body i s) I) -> pc (for_n n i st body s) I.
Proof.
  intros Hs HB. revert i s Hs. induction n as [|n IH]; intros i s Hs; cbn [for_n]; [apply pc_ret, Hs|].
  eapply pc_bind; [apply HB, Hs|]. intros s' Hs'. apply IH, Hs'.
Qed.
Lemma pc_for {S} lo hi (body : Z -> S -> res S) s (I : S -> Prop) : I s -> (forall i s, I s -> pc (body i s) I) -> pc (for_ lo hi body s) I.
Proof. intros Hs HB. unfold for_. apply pc_skip. intros _. apply pc_for_n; assumption. Qed.
Lemma pc_loop {S} fuel (body : S -> res (S * bool)) s (I : S -> Prop) : I s -> (forall s, I s -> pc (body s) (fun x => I (fst x))) -> pc (loop fuel body s) I.
Proof.
  intros Hs HB. revert s Hs. induction fuel as [|n IH]; intros s Hs; cbn [loop]; [intros a t E; discriminate|].
  eapply pc_bind; [apply HB, Hs|]. intros [s' go] Hs'. cbn [fst] in Hs'. apply pc_skip. intros _. destruct go; [apply IH, Hs'|apply pc_ret, Hs'].
Qed.
Lemma pc_wr l i v : pc (wr l i v) (fun l' => zlen l' = zlen l).
Proof. intros a t E. unfold wr in E. destruct (_ && _); [|discriminate]. injection E as <- _. apply zlen_zset. Qed.
Lemma pc_put l o x : pc (put l o x) (fun l' => zlen l' = zlen l).
Proof.
  intros a t E. unfold put in E. destruct (Z.leb_spec 0 o); [|discriminate]. destruct (Z.leb_spec (o + zlen x) (zlen l)); [|discriminate].
  cbn [andb] in E. injection E as <- _. apply zlen_zsplice; lia.
Qed.
Lemma pc_sub l o n : pc (sub l o n) (fun x => zlen x = n /\ 0 <= o /\ 0 <= n /\ o + n <= zlen l /\ x = zslice l o n).
Proof.
  intros a t E. unfold sub in E. destruct (Z.leb_spec 0 o); [|discriminate]. destruct (Z.leb_spec 0 n); [|discriminate].
  destruct (Z.leb_spec (o + n) (zlen l)); [|discriminate]. cbn [andb] in E. injection E as <- _. rewrite zlen_zslice by lia. auto 6.
Qed.

Lemma frodo_pack_len out n inp il lsb : pc (frodo_pack out n inp il lsb) (fun o => zlen o = zlen out).
Proof.
  unfold frodo_pack, memset. eapply pc_bind.
  { destruct (0 <=? n); [apply pc_put|intros a t E; discriminate]. }
  intros o Ho. eapply pc_bind.
  - apply (pc_loop _ _ _ (fun '(o, _, _, _, _) => zlen o = zlen out)); [exact Ho|].
    intros [[[[o1 i] j] w] bits] H1. unfold pack_outer. apply pc_branch; [|apply pc_ret; exact H1].
    eapply pc_bind.
    + apply (pc_loop _ _ _ (fun '(o, _, _, _, _) => zlen o = zlen out)); [exact H1|].
      intros [[[[o2 j2] w2] bits2] b2] H2. unfold pack_inner. apply pc_branch; [|apply pc_ret; exact H2].
      do 3 (apply pc_skip; intros ?). cbv zeta. do 3 (apply pc_skip; intros ?). eapply pc_bind; [apply pc_wr|]. intros o3 H3.
      cbv beta in H3. rewrite H2 in H3. cbv zeta. apply pc_skip. intros ?. cbv zeta.
      apply pc_branch; [apply pc_branch|]; try (apply pc_skip; intros ?); apply pc_ret; exact H3.
    + intros [[[[o2 j2] w2] bits2] b2] H2. apply pc_branch; apply pc_ret; exact H2.
  - intros [[[[o1 i] j] w] bits] H1. apply pc_ret. exact H1.
Qed.
Lemma squeeze_len h nb s r : pc (keccak_squeezeblocks h nb s r) (fun x => zlen (fst x) = zlen h).
Proof.
  unfold keccak_squeezeblocks. eapply pc_bind.
  - apply (pc_loop _ _ _ (fun '(h', _, _, _) => zlen h' = zlen h)); [reflexivity|].
    intros [[[h1 s1] n1] o1] H1. apply pc_branch; [|apply pc_ret; exact H1]. apply pc_skip. intros s2.
    eapply pc_bind; [apply (pc_for _ _ _ _ (fun h' => zlen h' = zlen h)); [exact H1|]|].
    + intros i h2 H2. apply pc_skip. intros x. unfold store64. eapply pc_bind; [apply (pc_for _ _ _ _ (fun '(h', _) => zlen h' = zlen h)); [exact H2|]|].
      * intros k [h3 u] H3. eapply pc_bind; [apply pc_wr|]. intros h4 H4. cbv beta in H4. rewrite H3 in H4. apply pc_skip. intros u'. apply pc_ret. exact H4.
      * intros [h3 u] H3. apply pc_ret. exact H3.
    + intros h2 H2. apply pc_ret. exact H2.
  - intros [[[h1 s1] n1] o1] H1. apply pc_ret. exact H1.
Qed.
Lemma shake_len r out n inp il : pc (shake r out n inp il) (fun o => zlen o = zlen out).
Proof.
  unfold shake. apply pc_skip. intros s. cbv zeta. apply pc_skip. intros s1. eapply pc_bind; [apply squeeze_len|].
  intros [o s2] H. cbn [fst] in H. apply pc_branch; [|apply pc_ret; exact H]. apply pc_skip. intros [t s3].
  apply pc_for; [exact H|]. intros i o1 H1. apply pc_skip. intros x. eapply pc_mono; [apply pc_wr|]. cbv beta. intros; lia.
Qed.

(** ** Refinement *)
Section Ref.
Variables (R W : Z -> Prop).
Definition refK {A B} (m : res A) (b : prog B) (mem : list Z) (Q : A -> B -> list Z -> Prop) : Prop :=
  forall a t, m = Ok a t -> obeys R W b mem /\ exists bv mem', (forall g, solo b mem g = (ret bv, mem', g)) /\ Q a bv mem'.

Lemma K_ret {A B} (a : A) (b : B) mem (Q : A -> B -> list Z -> Prop) : Q a b mem -> refK (ret a) (Ret b) mem Q.
Proof. intros H a' t E. injection E as <- _. split; [exact I|]. exists b, mem. split; [reflexivity|exact H]. Qed.
Lemma K_bind {A B A' B'} (m : res A) (b : prog B) (f : A -> res A') (h : B -> prog B') mem (Q : A -> B -> list Z -> Prop) (Q' : A' -> B' -> list Z -> Prop) :
  refK m b mem Q -> (forall a bv mem', Q a bv mem' -> refK (f a) (h bv) mem' Q') -> refK (bind m f) (pbind b h) mem Q'.
Proof.
  intros H HF a' t E. apply bind_ok in E. destruct E as (a & t1 & t2 & E1 & E2).
  destruct (H a t1 E1) as (O & bv & mem' & S & HQ). destruct (HF a bv mem' HQ a' t2 E2) as (O' & bv' & mem'' & S' & HQ'). split.
  - apply obeys_bind; [exact O|]. intros x mx g Ex. rewrite S in Ex. apply (f_equal (fun z => (fst (fst z), snd (fst z)))) in Ex. cbn in Ex.
    injection Ex as <- <-. exact O'.
  - exists bv', mem''. split; [|exact HQ']. intros g. rewrite solo_bind, S. unfold ret at 1. apply S'.
Qed.
Lemma K_loc {A A' B'} (m : res A) (f : A -> res A') (h : A -> prog B') mem (P : A -> Prop) (Q' : A' -> B' -> list Z -> Prop) :
  pc m P -> (forall a, P a -> refK (f a) (h a) mem Q') -> refK (bind m f) (pbind (loc m) h) mem Q'.
Proof.
  intros HP HF. apply (K_bind m (loc m) f h mem (fun a b m' => b = a /\ m' = mem /\ P a)).
  - intros a t E. split; [apply obeys_loc|]. exists a, mem. split; [intros g; rewrite solo_loc, E; reflexivity|]. split; [reflexivity|]. split; [reflexivity|]. exact (HP a t E).
  - intros a b m' (-> & -> & Ha). auto.
Qed.
Lemma K_loc0 {A A' B'} (m : res A) (f : A -> res A') (h : A -> prog B') mem (Q' : A' -> B' -> list Z -> Prop) :
  (forall a, refK (f a) (h a) mem Q') -> refK (bind m f) (pbind (loc m) h) mem Q'.
Proof. intros HF. eapply K_loc; [apply pc_any|auto]. Qed.
Lemma K_load {A' B'} o n (f : list Z -> res A') (h : list Z -> prog B') mem (Q' : A' -> B' -> list Z -> Prop) :
  (forall i, o <= i < o + n -> R i) -> (forall x, zlen x = n -> refK (f x) (h x) mem Q') -> refK (bind (sub mem o n) f) (pbind (load o n) h) mem Q'.
Proof.
  intros HR HF. apply (K_bind _ _ f h mem (fun a b m' => b = a /\ m' = mem /\ zlen a = n)).
  - intros a t E. apply pc_sub in E. destruct E as (L & H1 & H2 & H3 & ->). split; [apply obeys_load; auto|].
    exists (zslice mem o n), mem. split; [intros g; apply solo_load; lia|]. auto.
  - intros a b m' (-> & -> & L). auto.
Qed.
Lemma K_store {A' B'} o x (f : list Z -> res A') (h : unit -> prog B') mem (Q' : A' -> B' -> list Z -> Prop) :
  (forall i, o <= i < o + zlen x -> W i) -> (forall mem', refK (f mem') (h tt) mem' Q') -> refK (bind (put mem o x) f) (pbind (store o x) h) mem Q'.
Proof.
  intros HW HF. apply (K_bind _ _ f h mem (fun a b m' => b = tt /\ m' = a)).
  - intros a t E. unfold put in E. destruct (Z.leb_spec 0 o); [|discriminate]. destruct (Z.leb_spec (o + zlen x) (zlen mem)); [|discriminate].
    cbn [andb] in E. injection E as <- _. split; [apply obeys_store; auto|].
    exists tt, (zsplice mem o x). split; [intros g; apply solo_store; lia|]. auto.
  - intros a b m' (-> & ->). auto.
Qed.
Lemma K_assoc {A A1 A2 B} (m : res A) (f : A -> res A1) (h : A1 -> res A2) (b : prog B) mem (Q : A2 -> B -> list Z -> Prop) :
  refK (bind m (fun x => bind (f x) h)) b mem Q -> refK (bind (bind m f) h) b mem Q.
Proof.
  intros H a t E. apply bind_ok in E. destruct E as (x & t1 & t2 & E1 & E2). apply bind_ok in E1. destruct E1 as (y & t3 & t4 & E3 & E4).
  eapply H. unfold bind. rewrite E3, E4, E2. reflexivity.
Qed.
Lemma K_unassoc {A A1 A2 B} (m : res A) (b : prog A1) (f : A1 -> prog A2) (h : A2 -> prog B) mem (Q : A -> B -> list Z -> Prop) :
  refK m (pbind b (fun x => pbind (f x) h)) mem Q -> refK m (pbind (pbind b f) h) mem Q.
Proof.
  intros H a t Em. destruct (H a t Em) as (O & bv & mem' & S & HQ). split.
  - clear - O. revert mem O. induction b as [x|e|a k IH|a v k IH|k IH|v k IH]; intros mem O; cbn in *; auto; destruct O as (O1 & O2 & O3); auto.
  - exists bv, mem'. split; [|exact HQ]. intros g. rewrite <- S, !solo_bind. destruct (solo b mem g) as [[[x tx|e] mx] gx]; [|reflexivity]. rewrite !solo_bind. reflexivity.
Qed.
Lemma K_shake {A' B'} P o n inp il (f : list Z -> res A') (h : unit -> prog B') mem (Q' : A' -> B' -> list Z -> Prop) :
  (forall i, o <= i < o + n -> R i /\ W i) -> (forall mem', refK (f mem') (h tt) mem' Q') ->
  refK (bind (shake_to P mem o n inp il) f) (pbind (shake_to_p P o n inp il) h) mem Q'.
Proof.
  intros HW HF. unfold shake_to, shake_to_p. apply K_assoc, K_unassoc. apply K_load; [intros; apply HW; auto|]. intros x Hx.
  apply K_assoc, K_unassoc. eapply K_loc; [apply shake_len|]. intros y Hy. cbv beta in Hy. apply K_store; [|exact HF]. intros i Hi. apply HW. lia.
Qed.
Lemma K_pack {A' B'} o n inp il lsb (f : list Z -> res A') (h : unit -> prog B') mem (Q' : A' -> B' -> list Z -> Prop) :
  (forall i, o <= i < o + n -> R i /\ W i) -> (forall mem', refK (f mem') (h tt) mem' Q') ->
  refK (bind (sub mem o n) (fun b => bind (frodo_pack b n inp il lsb) (fun b => bind (put mem o b) f))) (pbind (pack_to_p o n inp il lsb) h) mem Q'.
Proof.
  intros HW HF a t E. apply bind_ok in E. destruct E as (x & t1 & t2 & E1 & E). apply pc_sub in E1. destruct E1 as (Lx & H1 & H2 & H3 & _).
  apply bind_ok in E. destruct E as (y & t3 & t4 & E2 & E). apply bind_ok in E. destruct E as (mem1 & t5 & t6 & E3 & E).
  destruct (pack_inside R (fun a _ => W a) mem o n inp il lsb x y t3 H1 H2 H3 Lx E2) as (Ly & HI); [intros k Hk; apply HW; lia|intros k v Hk _; apply HW; lia|].
  unfold put in E3. destruct (_ && _); [|discriminate]. injection E3 as <- _.
  destruct (inside_solo _ _ _ _ _ HI) as (u & m & S & ->). destruct u. destruct (HF _ a t6 E) as (O & bv & mem' & S' & HQ). split.
  - apply obeys_bind; [eapply obeys_mono; [| |exact (inside_obeys _ _ _ _ _ HI)]; [auto|intros ? (? & ?); assumption]|].
    intros z mz g Ez. rewrite S in Ez. apply (f_equal (fun z => snd (fst z))) in Ez. cbn in Ez. subst mz. destruct z. exact O.
  - exists bv, mem'. split; [|exact HQ]. intros g. rewrite solo_bind, S. unfold ret at 1. apply S'.
Qed.
End Ref.

(** ** The three functions *)
Section Funs.
Variables (C : config) (me : Z).
Hypothesis HS : uses_state C = false.
Let P := cP C.
Hypothesis HSZ : 0 < pN P /\ 0 < pCB P /\ 0 < pD P * pN P.
Lemma size_eqs : NN P = pN P * 8 /\ bytesB P = pD P * pN P /\ bytesC P = pD P * 8 /\ pkBytes P = 16 + pD P * pN P /\
  skBytes P = pCB P + (16 + pD P * pN P) + 16 * pN P + pCB P /\ ctBytes P = pD P * pN P + pD P * 8 /\ bytesH P = pCB P /\ SEEDA = 16.
Proof.
  unfold skBytes, pkBytes, ctBytes, NN, bytesH, NBAR, SEEDA. rewrite (bytesB_eq P), (bytesC_eq P). repeat split; lia.
Qed.
Lemma K_state {A A' B'} (R W : Z -> Prop) (m : res A) (f : A -> res A') (h : A -> prog B') mem (Q' : A' -> B' -> list Z -> Prop) :
  (forall a, refK R W (f a) (h a) mem Q') -> refK R W (bind m f) (pbind (with_state C me m) h) mem Q'.
Proof. unfold with_state. rewrite HS. apply K_loc0. Qed.

Definition in_range (o n a : Z) : Prop := o <= a < o + n.
Definition same_end {L} (x : list Z * L * Z) (r : Z) (mem : list Z) : Prop := fst (fst x) = mem /\ snd x = r.

Ltac side := let i := fresh in let Hi := fresh in intros i Hi; unfold in_range; pose proof size_eqs; lia.
Lemma K_memcpy_out {A' B'} (R W : Z -> Prop) src so d n (f : list Z -> res A') (h : unit -> prog B') mem (Q' : A' -> B' -> list Z -> Prop) :
  (forall i, d <= i < d + n -> W i) -> (forall mem', refK R W (f mem') (h tt) mem' Q') ->
  refK R W (bind (memcpy mem d src so n) f) (pbind (loc (sub src so n)) (fun x => pbind (store d x) h)) mem Q'.
Proof.
  intros HW HF. unfold memcpy. apply K_assoc. eapply K_loc; [apply pc_sub|]. cbv beta. intros x (L & _). apply K_store; [rewrite L; exact HW|exact HF].
Qed.
Lemma K_memcpy_from {A' B'} (R W : Z -> Prop) dst d so n (f : list Z -> res A') (h : list Z -> prog B') mem (Q' : A' -> B' -> list Z -> Prop) :
  (forall i, so <= i < so + n -> R i) -> (forall x, refK R W (f x) (h x) mem Q') ->
  refK R W (bind (memcpy dst d mem so n) f) (pbind (load so n) (fun x => pbind (loc (put dst d x)) h)) mem Q'.
Proof.
  intros HR HF. unfold memcpy. apply K_assoc. apply K_load; [exact HR|]. intros x _. apply K_loc0. exact HF.
Qed.
Lemma K_memcpy_in {A' B'} (R W : Z -> Prop) d so n (f : list Z -> res A') (h : unit -> prog B') mem (Q' : A' -> B' -> list Z -> Prop) :
  (forall i, so <= i < so + n -> R i) -> (forall i, d <= i < d + n -> W i) -> (forall mem', refK R W (f mem') (h tt) mem' Q') ->
  refK R W (bind (memcpy_in mem d so n) f)
    (pbind (if (d + n <=? so) || (so + n <=? d) then pbind (load so n) (fun x => store d x) else Fault UB_overlap) h) mem Q'.
Proof.
  intros HR HW HF. unfold memcpy_in. destruct (_ || _); [|intros a t E; discriminate]. unfold memcpy. apply K_assoc, K_unassoc.
  apply K_load; [exact HR|]. intros x L. apply K_store; [rewrite L; exact HW|exact HF].
Qed.
Lemma K_aligned {A' B'} (R W : Z -> Prop) c o n (f : list Z -> res A') (h : list Z -> prog B') mem (Q' : A' -> B' -> list Z -> Prop) :
  (forall i, o <= i < o + n -> R i) -> (forall x, refK R W (f x) (h x) mem Q') ->
  refK R W (bind (if c : bool then sub mem o n else Err UB_align) f) (pbind (if c then load o n else Fault UB_align) h) mem Q'.
Proof. intros HR HF. destruct c; [|intros a t E; discriminate]. apply K_load; auto. Qed.

Ltac kstep := first
  [ apply K_pack; [side|intros ?]
  | apply K_memcpy_out; [side|intros ?]
  | apply K_memcpy_from; [side|intros ?]
  | apply K_memcpy_in; [side|side|intros ?]
  | apply K_aligned; [side|intros ?]
  | apply K_shake; [side|intros ?]
  | apply K_load; [side|intros ? _]
  | apply K_state; intros ?
  | apply K_loc0; intros ?
  | apply K_ret; split; reflexivity ].
Ltac kall := repeat (match goal with |- refK _ _ (match ?x with (_, _) => _ end) _ _ _ => destruct x end || kstep).

Lemma keypair_ref rb mem pk sk :
  refK (fun a => in_range pk (pkBytes P) a \/ in_range sk (skBytes P) a) (fun a => in_range pk (pkBytes P) a \/ in_range sk (skBytes P) a)
    (crypto_kem_keypair C rb mem pk sk) (keypair_p C me rb pk sk) mem same_end.
Proof. unfold crypto_kem_keypair, keypair_p. cbv zeta. fold P. kall. Qed.
Lemma enc_ref rb mem ct ss pk :
  refK (fun a => in_range ct (ctBytes P) a \/ in_range ss (pCB P) a \/ in_range pk (pkBytes P) a) (fun a => in_range ct (ctBytes P) a \/ in_range ss (pCB P) a)
    (crypto_kem_enc C rb mem ct ss pk) (enc_p C me rb ct ss pk) mem same_end.
Proof. unfold crypto_kem_enc, enc_p, enc_rest. cbv zeta. fold P. kall. Qed.
Lemma dec_ref mem ss ct sk :
  refK (fun a => in_range ss (pCB P) a \/ in_range ct (ctBytes P) a \/ in_range sk (skBytes P) a) (fun a => in_range ss (pCB P) a)
    (crypto_kem_dec C mem ss ct sk) (dec_p C me ss ct sk) mem same_end.
Proof. unfold crypto_kem_dec, dec_p. cbv zeta. fold P. kall. Qed.
End Funs.
