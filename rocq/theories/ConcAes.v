(** The AES block encryptions as thread programs: every access to memory that another thread
    could see is an action.  (Aes.v models the same functions for one thread.) *)
From Verif Require Import CSem Aes Conc ConcProofs.

(** A load of an initialised byte. *)
Definition ldb (a : Z) : prog Z := Ld a (fun v => if v <? 0 then Fault UB_uninit else Ret v).
(** ( *state )[i][j]: the global [state] is read, then the byte; as an lvalue likewise. *)
Definition st_ld (i j : Z) : prog Z := Gld (fun p => ldb (p + stix i j)).
(** ( *state )[i][j] = v *)
Definition st_st (i j v : Z) : prog unit := Gld (fun p => St (p + stix i j) v (Ret tt)).

(** AddRoundKey, src/aes/aes_c.c:205-215.  In x ^= y the lvalue is evaluated once. *)
Definition AddRoundKey_p (RoundKey round : Z) : prog unit :=
  pfor 0 4 (fun i _ => pfor 0 4 (fun j _ =>
    Gld (fun p => x <~ ldb (p + stix i j) ;;
                  k <~ ldb (RoundKey + (round * 4 * 4 + i * 4 + j)) ;;
                  St (p + stix i j) (Z.lxor x k) (Ret tt))) tt) tt.
(** SubBytes, src/aes/aes_c.c:220-230 *)
Definition SubBytes_p : prog unit :=
  pfor 0 4 (fun i _ => pfor 0 4 (fun j _ =>
    x <~ st_ld j i ;;
    v <~ loc (getSBoxValue x) ;;
    st_st j i v) tt) tt.
(** ShiftRows, src/aes/aes_c.c:236-262 *)
Definition ShiftRows_p : prog unit :=
  temp <~ st_ld 0 1 ;;
  x <~ st_ld 1 1 ;; st_st 0 1 x ~;;
  x <~ st_ld 2 1 ;; st_st 1 1 x ~;;
  x <~ st_ld 3 1 ;; st_st 2 1 x ~;;
  st_st 3 1 temp ~;;
  temp <~ st_ld 0 2 ;;
  x <~ st_ld 2 2 ;; st_st 0 2 x ~;;
  st_st 2 2 temp ~;;
  temp <~ st_ld 1 2 ;;
  x <~ st_ld 3 2 ;; st_st 1 2 x ~;;
  st_st 3 2 temp ~;;
  temp <~ st_ld 0 3 ;;
  x <~ st_ld 3 3 ;; st_st 0 3 x ~;;
  x <~ st_ld 2 3 ;; st_st 3 3 x ~;;
  x <~ st_ld 1 3 ;; st_st 2 3 x ~;;
  st_st 1 3 temp.
(** ( *state )[i][j] ^= v, e.g. src/aes/aes_c.c:281 *)
Definition st_xor (i j v : Z) : prog unit :=
  Gld (fun p => x <~ ldb (p + stix i j) ;; St (p + stix i j) (Z.lxor x v) (Ret tt)).
(** MixColumns, src/aes/aes_c.c:272-285 *)
Definition MixColumns_p : prog unit :=
  pfor 0 4 (fun i _ =>
    t <~ st_ld i 0 ;;
    s0 <~ st_ld i 0 ;; s1 <~ st_ld i 1 ;; s2 <~ st_ld i 2 ;; s3 <~ st_ld i 3 ;;
    let Tmp := Z.lxor (Z.lxor (Z.lxor s0 s1) s2) s3 in
    x <~ st_ld i 0 ;; y <~ st_ld i 1 ;;
    st_xor i 0 (Z.lxor (xtime (Z.lxor x y)) Tmp) ~;;
    x <~ st_ld i 1 ;; y <~ st_ld i 2 ;;
    st_xor i 1 (Z.lxor (xtime (Z.lxor x y)) Tmp) ~;;
    x <~ st_ld i 2 ;; y <~ st_ld i 3 ;;
    st_xor i 2 (Z.lxor (xtime (Z.lxor x y)) Tmp) ~;;
    x <~ st_ld i 3 ;;
    st_xor i 3 (Z.lxor (xtime (Z.lxor x t)) Tmp)) tt.
(** Cipher, src/aes/aes_c.c:289-312 *)
Definition Cipher_p (RoundKey Nr : Z) : prog unit :=
  AddRoundKey_p RoundKey 0 ~;;
  pfor 1 Nr (fun round _ =>
      SubBytes_p ~;; ShiftRows_p ~;; MixColumns_p ~;; AddRoundKey_p RoundKey round) tt ~;;
  SubBytes_p ~;;
  ShiftRows_p ~;;
  AddRoundKey_p RoundKey Nr.
(** aes128_enc_c (Nr = 10), src/aes/aes_c.c:315-322, and aes256_enc_c (Nr = 14), 325-333:
    memcpy(output, input, 16); state = output; Cipher *)
Definition aes_enc_c_p (Nr input schedule output : Z) : prog unit :=
  x <~ load input 16 ;;
  store output x ~;;
  Gst output (Cipher_p schedule Nr).

(** _mm_loadu_si128 and an aligned load of the schedule *)
Definition loadu128_p (a : Z) : prog (list Z) :=
  x <~ load a 16 ;; if all_init x then Ret x else Fault UB_uninit.
(** An aligned load of schedule[i], src/aes/aes_ni.c:68-93 *)
Definition load128_p (a : Z) : prog (list Z) := if a mod 16 =? 0 then loadu128_p a else Fault UB_align.
(** aes128_enc_ni (Nr = 10), src/aes/aes_ni.c:68-79, and aes256_enc_ni (Nr = 14), 82-93 *)
Definition aes_enc_ni_p (Nr plaintext sch ciphertext : Z) : prog unit :=
  m <~ loadu128_p plaintext ;;
  k <~ load128_p sch ;;
  let m := mm_xor m k in
  m <~ pfor 1 Nr (fun i m => k <~ load128_p (sch + 16 * i) ;; Ret (mm_aesenc m k)) m ;;
  k <~ load128_p (sch + 16 * Nr) ;;
  store ciphertext (mm_aesenclast m k).

(* ------------------------------------------------------------------ *)
(** * Alone, the programs do what Aes.v says *)
Section Alone.
Variables (p : Z) (mem0 : list Z) (ka : Z) (SCH : list Z).
Hypothesis Hp : 0 <= p /\ p + 16 <= zlen mem0.
Hypothesis Hk : 0 <= ka /\ ka + zlen SCH <= zlen mem0 /\ zslice mem0 ka (zlen SCH) = SCH.
Hypothesis Hd : p + 16 <= ka \/ ka + zlen SCH <= p.

(** The 16 bytes at p are s, everything else is as in mem0, and state = p. *)
Definition at_ (s : list Z) (mem : list Z) : Prop := zlen s = 16 /\ mem = zsplice mem0 p s.
Definition refines {A B} (m : res A) (b : prog B) (mem : list Z) (Q : A -> B -> list Z -> Prop) : Prop :=
  forall a t, m = Ok a t -> exists bv mem', solo b mem p = (ret bv, mem', p) /\ Q a bv mem'.

Lemma ref_ret {A B} (a : A) (b : B) mem (Q : A -> B -> list Z -> Prop) : Q a b mem -> refines (ret a) (Ret b) mem Q.
Proof. intros H a' t E. injection E as <- _. exists b, mem. split; [reflexivity|exact H]. Qed.
Lemma ref_bind {A B A' B'} (m : res A) (b : prog B) (f : A -> res A') (g : B -> prog B') mem (Q : _ -> B -> list Z -> Prop) (Q' : _ -> B' -> list Z -> Prop) :
  refines m b mem Q -> (forall a bv mem', Q a bv mem' -> refines (f a) (g bv) mem' Q') -> refines (bind m f) (pbind b g) mem Q'.
Proof.
  intros H1 H2 a t E. destruct m as [a1 t1|e]; [|discriminate]. cbn in E.
  destruct (H1 a1 t1 eq_refl) as (bv & mem1 & S1 & Q1). destruct (f a1) as [a2 t2|e] eqn:Ef; [|discriminate]. injection E as <- _.
  destruct (H2 a1 bv mem1 Q1 a2 t2 Ef) as (b2 & mem2 & S2 & Q2). exists b2, mem2. split; [|exact Q2]. rewrite solo_bind, S1. exact S2.
Qed.
Lemma ref_mono {A B} (m : res A) (b : prog B) mem (Q Q' : A -> B -> list Z -> Prop) :
  refines m b mem Q -> (forall a bv mem', Q a bv mem' -> Q' a bv mem') -> refines m b mem Q'.
Proof. intros H HQ a t E. destruct (H a t E) as (bv & mem' & S & HQ'). exists bv, mem'. auto. Qed.
Lemma ref_emit {A B} e (f : unit -> res A) (b : prog B) mem (Q : A -> B -> list Z -> Prop) : refines (f tt) b mem Q -> refines (bind (emit e) f) b mem Q.
Proof. intros H a t E. cbn in E. destruct (f tt) as [x t'|] eqn:Ef; [|discriminate]. injection E as <- _. exact (H x t' eq_refl). Qed.
Lemma ref_for lo hi (fc : Z -> list Z -> res (list Z)) (fp : Z -> unit -> prog unit) s mem : at_ s mem ->
  (forall i s mem u, lo <= i < hi -> at_ s mem -> refines (fc i s) (fp i u) mem (fun s' _ m => at_ s' m)) ->
  refines (for_ lo hi fc s) (pfor lo hi fp tt) mem (fun s' _ m => at_ s' m).
Proof.
  intros Hs Hb. unfold for_, pfor. apply ref_emit.
  assert (G : forall n i s mem u, lo <= i -> i + Z.of_nat n <= hi \/ n = O -> at_ s mem ->
     refines (for_n n i 1 fc s) (pfor_n n i fp u) mem (fun s' _ m => at_ s' m)).
  { induction n as [|n IH]; intros i s1 mem1 u Hi Hn H1; cbn [for_n pfor_n]; [apply ref_ret; exact H1|].
    eapply ref_bind; [apply Hb; [lia|exact H1]|]. cbn. intros s2 u2 mem2 H2. apply IH; [lia|lia|exact H2]. }
  apply G; [lia| |exact Hs]. destruct (Z_le_dec lo hi); [left; lia|right; lia].
Qed.
Lemma at_znth s mem i : at_ s mem -> 0 <= i < 16 -> znth mem (p + i) = znth s i /\ 0 <= p + i < zlen mem.
Proof.
  intros (Ls & ->) Hi. rewrite zlen_zsplice by lia. split; [|lia]. rewrite znth_zsplice by lia.
  destruct (Z.leb_spec p (p + i)), (Z.ltb_spec (p + i) (p + zlen s)); cbn; try lia. f_equal; lia.
Qed.
Lemma rd_ok s i a t : rd s i = Ok a t -> 0 <= i < zlen s /\ a = znth s i /\ (a <? 0) = false.
Proof.
  unfold rd. destruct (Z.leb_spec 0 i), (Z.ltb_spec i (zlen s)); cbn; try discriminate.
  destruct (znth s i <? 0) eqn:E; [discriminate|]. intros H1; injection H1 as <- _. auto.
Qed.
Lemma ref_ldb s mem i : at_ s mem -> refines (rd s i) (ldb (p + i)) mem (fun a b m => a = b /\ m = mem).
Proof.
  intros Hs a t E. apply rd_ok in E. destruct E as (Hi & -> & Ea). rewrite (proj1 Hs) in Hi. destruct (at_znth s mem i Hs Hi) as (E1 & E2).
  exists (znth s i), mem. split; [|auto]. unfold ldb. cbn [solo]. rewrite (proj2 (in_mem_true mem (p + i)) E2), E1, Ea. reflexivity.
Qed.
Lemma ref_stld s mem i j : at_ s mem -> refines (rd s (stix i j)) (st_ld i j) mem (fun a b m => a = b /\ m = mem).
Proof. intros Hs a t E. destruct (ref_ldb s mem _ Hs a t E) as (b & m & S & Q). exists b, m. split; [exact S|exact Q]. Qed.
Lemma ref_st s mem i v : at_ s mem -> refines (wr s i v) (St (p + i) v (Ret tt)) mem (fun s' _ m => at_ s' m).
Proof.
  intros Hs a t E. unfold wr in E. destruct (Z.leb_spec 0 i), (Z.ltb_spec i (zlen s)); cbn in E; try discriminate. injection E as <- _.
  pose proof (proj1 Hs) as Ls. destruct (at_znth s mem i Hs ltac:(lia)) as (_ & E2). exists tt, (zset mem (p + i) v).
  split; [cbn [solo]; rewrite (proj2 (in_mem_true mem (p + i)) E2); reflexivity|].
  split; [now rewrite zlen_zset|]. destruct Hs as (_ & ->). apply list_ext.
  - rewrite zlen_zset, !zlen_zsplice; rewrite ?zlen_zset; lia.
  - rewrite zlen_zset, zlen_zsplice by lia. intros k Hk'. rewrite zlen_zsplice in E2 by lia.
    rewrite znth_zset by (rewrite zlen_zsplice; lia). rewrite !znth_zsplice by (rewrite ?zlen_zset; lia). rewrite zlen_zset, Ls, znth_zset by lia.
    destruct (Z.leb_spec p k), (Z.ltb_spec k (p + 16)), (Z.eqb_spec (p + i) k), (Z.eqb_spec i (k - p)); cbn; try lia; reflexivity.
Qed.
Lemma ref_stst s mem i j v : at_ s mem -> refines (wr s (stix i j) v) (st_st i j v) mem (fun s' _ m => at_ s' m).
Proof. intros Hs a t E. destruct (ref_st s mem _ v Hs a t E) as (b & m & S & Q). exists b, m. split; [exact S|exact Q]. Qed.
Lemma ref_loc {A} (m : res A) mem : refines m (loc m) mem (fun a b m' => a = b /\ m' = mem).
Proof. intros a t ->. exists a, mem. split; [reflexivity|auto]. Qed.
Lemma ref_key s mem i : at_ s mem -> refines (rd SCH i) (ldb (ka + i)) mem (fun a b m => a = b /\ m = mem).
Proof.
  intros Hs a t E. apply rd_ok in E. destruct E as (Hi & -> & Ea).
  assert (E1 : znth mem (ka + i) = znth SCH i).
  { destruct Hs as (Ls & ->). rewrite znth_zsplice by lia. replace ((p <=? ka + i) && (ka + i <? p + zlen s)) with false.
    - destruct Hk as (K1 & K2 & K3). rewrite <- K3 at 1. rewrite znth_zslice by lia. reflexivity.
    - symmetry. apply andb_false_iff. rewrite Z.leb_gt, Z.ltb_ge. lia. }
  assert (E2 : 0 <= ka + i < zlen mem). { destruct Hs as (Ls & ->). rewrite zlen_zsplice by lia. lia. }
  exists (znth SCH i), mem. split; [|auto]. unfold ldb. cbn [solo]. rewrite (proj2 (in_mem_true _ _) E2), E1, Ea. reflexivity.
Qed.
Lemma ref_gld {A B} (m : res A) (k : Z -> prog B) mem (Q : A -> B -> list Z -> Prop) : refines m (k p) mem Q -> refines m (Gld k) mem Q.
Proof. intros H; exact H. Qed.

Lemma ref_AddRoundKey s mem round : at_ s mem -> refines (AddRoundKey s SCH round) (AddRoundKey_p ka round) mem (fun s' _ m => at_ s' m).
Proof.
  intros Hs. apply ref_for; [exact Hs|]. clear s mem Hs. intros i s mem u Hi Hs. apply ref_for; [exact Hs|]. clear s mem u Hs. intros j s mem u Hj Hs.
  apply ref_gld. eapply ref_bind; [apply ref_ldb, Hs|]. intros x b m (-> & ->).
  eapply ref_bind; [apply ref_key with (1 := Hs)|]. intros k b' m (-> & ->). apply ref_st, Hs.
Qed.
Lemma ref_SubBytes s mem : at_ s mem -> refines (SubBytes s) SubBytes_p mem (fun s' _ m => at_ s' m).
Proof.
  intros Hs. apply ref_for; [exact Hs|]. clear s mem Hs. intros i s mem u Hi Hs. apply ref_for; [exact Hs|]. clear s mem u Hs. intros j s mem u Hj Hs.
  eapply ref_bind; [apply ref_stld, Hs|]. intros x b m (-> & ->).
  eapply ref_bind; [apply ref_loc|]. intros v b' m (-> & ->). apply ref_stst, Hs.
Qed.
Ltac rrd H := eapply ref_bind; [apply ref_stld, H|]; let x := fresh "x" in let b := fresh "b" in let m := fresh "m" in intros x b m (-> & ->).
Ltac rwr H := eapply ref_bind; [apply ref_stst, H|]; clear H; let s := fresh "s" in let u := fresh "u" in let m := fresh "m" in intros s u m H.
Lemma ref_ShiftRows s mem : at_ s mem -> refines (ShiftRows s) ShiftRows_p mem (fun s' _ m => at_ s' m).
Proof.
  intros Hs. unfold ShiftRows, ShiftRows_p.
  rrd Hs. rrd Hs. rwr Hs. rrd Hs. rwr Hs. rrd Hs. rwr Hs. rwr Hs.
  rrd Hs. rrd Hs. rwr Hs. rwr Hs. rrd Hs. rrd Hs. rwr Hs. rwr Hs.
  rrd Hs. rrd Hs. rwr Hs. rrd Hs. rwr Hs. rrd Hs. rwr Hs. apply ref_stst, Hs.
Qed.
Lemma ref_stxor s mem i j v : at_ s mem ->
  refines (x <- rd s (stix i j) ;; wr s (stix i j) (Z.lxor x v)) (st_xor i j v) mem (fun s' _ m => at_ s' m).
Proof.
  intros Hs. apply ref_gld. eapply ref_bind; [apply ref_ldb, Hs|]. intros x b m (-> & ->). apply ref_st, Hs.
Qed.
Lemma ref_bind2 {A A' A'' B B'} (m : res A) (f : A -> res A') (h : A' -> res A'') (b : prog B) (g : B -> prog B') mem (Q : _ -> B -> list Z -> Prop) (Q' : _ -> B' -> list Z -> Prop) :
  refines (bind m f) b mem Q -> (forall a bv mem', Q a bv mem' -> refines (h a) (g bv) mem' Q') ->
  refines (bind m (fun x => bind (f x) h)) (pbind b g) mem Q'.
Proof.
  intros H1 H2 a t E. destruct m as [a1 t1|e]; [|discriminate]. cbn in E, H1.
  destruct (f a1) as [a2 t2|e] eqn:Ef; [|discriminate]. cbn in E. destruct (h a2) as [a3 t3|e] eqn:Eh; [|discriminate]. injection E as <- _.
  destruct (H1 a2 (t1 ++ t2) eq_refl) as (bv & mem1 & S1 & Q1).
  destruct (H2 a2 bv mem1 Q1 a3 t3 Eh) as (b2 & mem2 & S2 & Q2). exists b2, mem2. split; [|exact Q2]. rewrite solo_bind, S1. exact S2.
Qed.
Lemma ref_MixColumns s mem : at_ s mem -> refines (MixColumns s) MixColumns_p mem (fun s' _ m => at_ s' m).
Proof.
  intros Hs. apply ref_for; [exact Hs|]. clear s mem Hs. intros i s mem u Hi Hs.
  rrd Hs. rrd Hs. rrd Hs. rrd Hs. rrd Hs. cbv zeta. rrd Hs. rrd Hs.
  eapply ref_bind2; [apply ref_stxor, Hs|]. clear Hs. intros s1 u1 m1 Hs. rrd Hs. rrd Hs.
  eapply ref_bind2; [apply ref_stxor, Hs|]. clear Hs. intros s2 u2 m2 Hs. rrd Hs. rrd Hs.
  eapply ref_bind2; [apply ref_stxor, Hs|]. clear Hs. intros s3 u3 m3 Hs. rrd Hs.
  apply ref_stxor, Hs.
Qed.
Lemma ref_Cipher s mem Nr : at_ s mem -> refines (Cipher s SCH Nr) (Cipher_p ka Nr) mem (fun s' _ m => at_ s' m).
Proof.
  intros Hs. eapply ref_bind; [apply ref_AddRoundKey, Hs|]. cbv beta. clear s mem Hs. intros s _ mem Hs.
  eapply ref_bind.
  { apply ref_for; [exact Hs|]. clear s mem Hs. intros i s mem u Hi Hs.
    eapply ref_bind; [apply ref_SubBytes, Hs|]. cbv beta. clear s mem Hs. intros s _ mem Hs.
    eapply ref_bind; [apply ref_ShiftRows, Hs|]. cbv beta. clear s mem Hs. intros s _ mem Hs.
    eapply ref_bind; [apply ref_MixColumns, Hs|]. cbv beta. clear s mem Hs. intros s _ mem Hs. apply ref_AddRoundKey, Hs. }
  cbv beta. clear s mem Hs. intros s _ mem Hs.
  eapply ref_bind; [apply ref_SubBytes, Hs|]. cbv beta. clear s mem Hs. intros s _ mem Hs.
  eapply ref_bind; [apply ref_ShiftRows, Hs|]. cbv beta. clear s mem Hs. intros s _ mem Hs. apply ref_AddRoundKey, Hs.
Qed.
End Alone.

Lemma memcpy16 x y : zlen x = 16 -> zlen y = 16 -> memcpy y 0 x 0 16 = Ok x [ESlice 0 16; ESlice 0 16].
Proof.
  intros Lx Ly. unfold memcpy, sub. rewrite Lx.
  change ((0 <=? 0) && (0 <=? 16) && (0 + 16 <=? 16)) with true. cbn [bind]. rewrite zslice_all_n by exact Lx. unfold put. rewrite Lx, Ly.
  change ((0 <=? 0) && (0 + 16 <=? 16)) with true. cbn [bind app]. rewrite zsplice_all by lia. reflexivity.
Qed.
Lemma enc_c_alone Nr inp sch out SCH mem g c t :
  0 <= inp /\ inp + 16 <= zlen mem -> 0 <= out /\ out + 16 <= zlen mem ->
  0 <= sch /\ sch + zlen SCH <= zlen mem -> zslice mem sch (zlen SCH) = SCH -> out + 16 <= sch \/ sch + zlen SCH <= out ->
  aes_enc_c Nr (zslice mem inp 16) SCH (zslice mem out 16) = Ok c t ->
  solo (aes_enc_c_p Nr inp sch out) mem g = (ret tt, zsplice mem out c, out) /\ zlen c = 16.
Proof.
  intros Hi Ho Hs Es Hd E. unfold aes_enc_c_p. rewrite solo_bind, solo_load by lia. unfold ret at 1. rewrite solo_bind.
  assert (Lx : zlen (zslice mem inp 16) = 16) by (apply zlen_zslice; lia). assert (Ly : zlen (zslice mem out 16) = 16) by (apply zlen_zslice; lia).
  rewrite solo_store by lia. unfold ret at 1. cbn [solo]. unfold aes_enc_c in E.
  assert (E1 : memcpy (zslice mem out 16) 0 (zslice mem inp 16) 0 16 = Ok (zslice mem inp 16) [ESlice 0 16; ESlice 0 16]).
  { apply memcpy16; assumption. }
  rewrite E1 in E. cbn [bind] in E. destruct (Cipher (zslice mem inp 16) SCH Nr) as [c' t'|] eqn:EC; [|discriminate]. injection E as <- _.
  assert (Hat : at_ out mem (zslice mem inp 16) (zsplice mem out (zslice mem inp 16))) by (split; [exact Lx|reflexivity]).
  destruct (ref_Cipher out mem sch SCH Ho (conj (proj1 Hs) (conj (proj2 Hs) Es)) Hd _ _ Nr Hat c' t' EC) as (u & m & S & (Lc & ->)).
  destruct u. split; [exact S|exact Lc].
Qed.

(** AES-NI *)
Lemma solo_loadu128 mem g a x t l o : loadu128 l o = Ok x t -> 0 <= a -> a + 16 <= zlen mem -> zslice mem a 16 = zslice l o 16 ->
  solo (loadu128_p a) mem g = (ret x, mem, g).
Proof.
  intros E Ha Hl Ex. unfold loadu128_p. rewrite solo_bind, solo_load by lia. unfold ret at 1. unfold loadu128, sub in E.
  destruct ((0 <=? o) && (0 <=? 16) && (o + 16 <=? zlen l)); [|discriminate]. cbn [bind] in E. rewrite Ex.
  destruct (all_init (zslice l o 16)); [|discriminate]. cbn in E. injection E as <- _. reflexivity.
Qed.
Lemma solo_load128 mem g SCH sch i x t : load128 true SCH i = Ok x t -> sch mod 16 = 0 ->
  0 <= sch -> sch + zlen SCH <= zlen mem -> zslice mem sch (zlen SCH) = SCH -> solo (load128_p (sch + 16 * i)) mem g = (ret x, mem, g).
Proof.
  intros E Hal Hs Hl Es. assert (Hi : 0 <= 16 * i /\ 16 * i + 16 <= zlen SCH).
  { unfold load128, loadu128, sub in E. destruct (Z.leb_spec 0 (16 * i)), (Z.leb_spec (16 * i + 16) (zlen SCH)); cbn in E; try discriminate. lia. }
  unfold load128_p. replace ((sch + 16 * i) mod 16) with 0 by (rewrite (Z.mul_comm 16), Z.mod_add by lia; lia). rewrite Z.eqb_refl.
  apply (solo_loadu128 mem g (sch + 16 * i) x t SCH (16 * i)); [exact E|lia|lia|]. rewrite (zslice_ztab mem), (zslice_ztab SCH) by lia.
  apply ztab_ext. intros k Hk'. rewrite <- Es. rewrite znth_zslice by lia. f_equal. lia.
Qed.
Lemma enc_ni_alone Nr inp sch out SCH mem g c t : sch mod 16 = 0 ->
  0 <= inp /\ inp + 16 <= zlen mem -> 0 <= out /\ out + 16 <= zlen mem ->
  0 <= sch /\ sch + zlen SCH <= zlen mem -> zslice mem sch (zlen SCH) = SCH ->
  aes_enc_ni true Nr (zslice mem inp 16) SCH (zslice mem out 16) = Ok c t ->
  solo (aes_enc_ni_p Nr inp sch out) mem g = (ret tt, zsplice mem out c, g) /\ zlen c = 16.
Proof.
  intros Hal Hi Ho Hs Es E. unfold aes_enc_ni in E. unfold aes_enc_ni_p.
  assert (Lx : zlen (zslice mem inp 16) = 16) by (apply zlen_zslice; lia). assert (Ly : zlen (zslice mem out 16) = 16) by (apply zlen_zslice; lia).
  destruct (loadu128 (zslice mem inp 16) 0) as [m0 t0|] eqn:E0; [|discriminate]. cbn [bind] in E.
  rewrite solo_bind, (solo_loadu128 mem g inp m0 t0 _ _ E0) by (try lia; symmetry; apply zslice_all_n; exact Lx). unfold ret at 1. rewrite solo_bind.
  destruct (load128 true SCH 0) as [k0 t1|] eqn:E1; [|discriminate]. cbn [bind] in E.
  replace sch with (sch + 16 * 0) at 1 by lia. rewrite (solo_load128 mem g SCH sch 0 k0 t1 E1) by tauto. unfold ret at 1. cbv zeta in E |- *.
  rewrite solo_bind.
  assert (L : forall n i m r tr, for_n n i 1 (fun i m => k <- load128 true SCH i ;; ret (mm_aesenc m k)) m = Ok r tr ->
    solo (pfor_n n i (fun i m => k <~ load128_p (sch + 16 * i) ;; Ret (mm_aesenc m k)) m) mem g = (ret r, mem, g)).
  { induction n as [|n IH]; intros i m r tr En; cbn [for_n pfor_n] in *; [injection En as <- _; reflexivity|].
    destruct (load128 true SCH i) as [k t'|] eqn:Ek; [|discriminate]. cbn [bind ret] in En.
    rewrite solo_bind, solo_bind, (solo_load128 mem g SCH sch i k t' Ek) by tauto. cbn [solo ret].
    destruct (for_n n (i + 1) 1 _ (mm_aesenc m k)) as [r' t''|] eqn:Er; [|discriminate]. injection En as <- _. exact (IH _ _ _ _ Er). }
  unfold for_ in E. destruct (for_n (Z.to_nat (Nr - 1)) 1 1 _ (mm_xor m0 k0)) as [m1 t2|] eqn:Em; [|cbn in E; discriminate]. cbn [bind emit] in E.
  unfold pfor. rewrite (L _ _ _ _ _ Em). unfold ret at 1. rewrite solo_bind.
  destruct (load128 true SCH Nr) as [k1 t3|] eqn:E2; [|discriminate]. cbn [bind] in E.
  rewrite (solo_load128 mem g SCH sch Nr k1 t3 E2) by tauto. unfold ret at 1.
  assert (Lc : zlen (mm_aesenclast m1 k1) = 16) by (unfold mm_aesenclast, mm_xor; apply zlen_ztab; lia).
  assert (Ez : zsplice (zslice mem out 16) 0 (mm_aesenclast m1 k1) = mm_aesenclast m1 k1) by (apply zsplice_all; lia).
  rewrite solo_store by lia. unfold storeu128, put in E. rewrite Lc, Ly, Ez in E. change ((0 <=? 0) && (0 + 16 <=? 16)) with true in E. cbn [bind] in E. injection E as <- _. auto.
Qed.
(** It reads plaintext and schedule, writes the ciphertext, and nothing else. *)
Lemma obeys_loadu (R W : Z -> Prop) a mem : 0 <= a -> a + 16 <= zlen mem -> (forall i, a <= i < a + 16 -> R i) -> obeys R W (loadu128_p a) mem.
Proof.
  intros. unfold loadu128_p. apply obeys_bind; [apply obeys_load; auto|]. intros x m g _. destruct (all_init x); exact I.
Qed.
Lemma obeys_load128 (R W : Z -> Prop) a mem : 0 <= a -> a + 16 <= zlen mem -> (forall i, a <= i < a + 16 -> R i) -> obeys R W (load128_p a) mem.
Proof. intros. unfold load128_p. destruct (a mod 16 =? 0); [apply obeys_loadu; auto|exact I]. Qed.
Lemma solo_load_same (p : prog (list Z)) a mem g x m' : p = loadu128_p a \/ p = load128_p a -> 0 <= a -> a + 16 <= zlen mem -> solo p mem g = (ret x, m', g) -> m' = mem.
Proof.
  assert (U : 0 <= a -> a + 16 <= zlen mem -> solo (loadu128_p a) mem g = (ret x, m', g) -> m' = mem).
  { intros Ha Hl. unfold loadu128_p. rewrite solo_bind, solo_load by lia. unfold ret at 1. destruct (all_init _); cbn; intros E; congruence. }
  intros [-> | ->] Ha Hl; [auto|]. unfold load128_p. destruct (a mod 16 =? 0); [auto|]. cbn. intros E; congruence.
Qed.
Lemma obeys_ni (R W : Z -> Prop) Nr inp sch out mem : 1 <= Nr ->
  0 <= inp /\ inp + 16 <= zlen mem -> 0 <= out /\ out + 16 <= zlen mem -> 0 <= sch /\ sch + 16 * (Nr + 1) <= zlen mem ->
  (forall i, inp <= i < inp + 16 -> R i) -> (forall i, sch <= i < sch + 16 * (Nr + 1) -> R i) -> (forall i, out <= i < out + 16 -> W i) ->
  obeys R W (aes_enc_ni_p Nr inp sch out) mem.
Proof.
  intros HN Hi Ho Hs RI RS WO. unfold aes_enc_ni_p.
  apply obeys_bind; [apply obeys_loadu; auto; lia|]. intros m mem1 g E. apply (solo_load_same _ inp) in E; [subst mem1|auto|lia|lia].
  apply obeys_bind; [apply obeys_load128; [lia|lia|intros; apply RS; lia]|]. intros k mem1 g1 E. apply (solo_load_same _ sch) in E; [subst mem1|auto|lia|lia].
  cbv zeta. unfold pfor.
  assert (L : forall n i m, 0 <= i -> i + Z.of_nat n <= Nr -> obeys R W (pfor_n n i (fun i m => k <~ load128_p (sch + 16 * i) ;; Ret (mm_aesenc m k)) m) mem /\
     forall a m' g, solo (pfor_n n i (fun i m => k <~ load128_p (sch + 16 * i) ;; Ret (mm_aesenc m k)) m) mem g = (ret a, m', g) -> m' = mem).
  { induction n as [|n IH]; intros i mm Hi' Hn; cbn [pfor_n]; [split; [exact I|cbn; congruence]|].
    split.
    - apply obeys_bind; [apply obeys_bind; [apply obeys_load128; [lia|lia|intros; apply RS; lia]|intros; exact I]|].
      intros a m' g' E. assert (m' = mem).
      { rewrite solo_bind in E. destruct (solo (load128_p (sch + 16 * i)) mem g') as [[[x t|e] mm'] gg] eqn:Ex; cbn in E; [|discriminate].
        unfold load128_p in Ex. destruct ((sch + 16 * i) mod 16 =? 0); [|discriminate]. unfold loadu128_p in Ex.
        rewrite solo_bind, solo_load in Ex by lia. unfold ret at 1 in Ex. destruct (all_init _); cbn in Ex; congruence. }
      subst m'. apply IH; lia.
    - intros a m' g' E. rewrite solo_bind, solo_bind in E.
      destruct (solo (load128_p (sch + 16 * i)) mem g') as [[[x t|e] mm'] gg] eqn:Ex; cbn in E; [|discriminate].
      assert (mm' = mem /\ gg = g') as (-> & ->).
      { unfold load128_p in Ex. destruct ((sch + 16 * i) mod 16 =? 0); [|discriminate]. unfold loadu128_p in Ex.
        rewrite solo_bind, solo_load in Ex by lia. unfold ret at 1 in Ex. destruct (all_init _); cbn in Ex; [split; congruence|discriminate]. }
      apply IH in E; [exact E|lia|lia]. }
  destruct (L (Z.to_nat (Nr - 1)) 1 (mm_xor m k) ltac:(lia) ltac:(lia)) as (L1 & L2).
  apply obeys_bind; [exact L1|]. intros m1 mem1 g2 E. apply L2 in E. subst mem1.
  apply obeys_bind; [apply obeys_load128; [lia|lia|intros; apply RS; lia]|]. intros k1 mem1 g3 E. apply (solo_load_same _ (sch + 16 * Nr)) in E; [subst mem1|auto|lia|lia].
  assert (Lc : zlen (mm_aesenclast m1 k1) = 16) by (unfold mm_aesenclast, mm_xor; apply zlen_ztab; lia).
  apply obeys_store; [lia|lia|]. intros i Hi'. apply WO. lia.
Qed.
