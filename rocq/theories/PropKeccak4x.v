(** Property C47: the interface to four Keccak states (KeccakP-1600-times4). *)
From Verif Require Import CSem Params Fips202 KeccakSpec KeccakProofs ShakeProofs Fips202x4 Fips202x4Proofs Keccak4x
  Keccak4xSpec Keccak4xProofs.

(* ------------------------------------------------------------------ *)
(** * Vocabulary *)

(** The calls (KeccakP-1600-times4-SnP.h:31-53).  [l] is the instance, [n] a number of bytes, [cnt] a number of
    lanes and [ofs] the distance between the data of two instances in lanes. *)
Inductive call : Type :=
| Initialize
| Add_byte (l byte off : Z)
| Add_bytes (l : Z) (data : list Z) (off n : Z)
| Overwrite_bytes (l : Z) (data : list Z) (off n : Z)
| Overwrite_zeroes (l n : Z)
| Add_lanes (data : list Z) (cnt ofs : Z)
| Overwrite_lanes (data : list Z) (cnt ofs : Z)
| Permute (full : bool)
| Absorb (full : bool) (data : list Z) (cnt lop los len : Z)
| Extract_bytes (l : Z) (out : list Z) (off n : Z)
| Extract_add_bytes (l : Z) (inp out : list Z) (off n : Z)
| Extract_lanes (out : list Z) (cnt ofs : Z)
| Extract_add_lanes (inp out : list Z) (cnt ofs : Z).

(** Running a call on the object [ss]: the object afterwards and what the caller gets (the output buffer, or
    the number of bytes for Absorb). *)
Definition rounds_of (full : bool) : vlanes -> res vlanes := if full then rounds24 else rounds12.
Definition perform (c : call) (ss : list Z) : res (list Z * list Z) :=
  match c with
  | Initialize => ss <- InitializeAll ss ;; ret (ss, [])
  | Add_byte l b off => ss <- AddByte ss l b off ;; ret (ss, [])
  | Add_bytes l d off n => ss <- AddBytes ss l d off n ;; ret (ss, [])
  | Overwrite_bytes l d off n => ss <- OverwriteBytes ss l d off n ;; ret (ss, [])
  | Overwrite_zeroes l n => ss <- OverwriteWithZeroes ss l n ;; ret (ss, [])
  | Add_lanes d cnt ofs => ss <- AddLanesAll ss d 0 cnt ofs ;; ret (ss, [])
  | Overwrite_lanes d cnt ofs => ss <- OverwriteLanesAll ss d cnt ofs ;; ret (ss, [])
  | Permute true => ss <- PermuteAll_24rounds true ss ;; ret (ss, [])
  | Permute false => ss <- PermuteAll_12rounds true ss ;; ret (ss, [])
  | Absorb full d cnt lop los len =>
      '(ss, o) <- FastLoop_Absorb (rounds_of full) true (S (Z.to_nat len)) ss cnt lop los d len ;; ret (ss, [o])
  | Extract_bytes l out off n => out <- ExtractBytes ss l out off n ;; ret (ss, out)
  | Extract_add_bytes l inp out off n => out <- ExtractAndAddBytes ss l inp out off n ;; ret (ss, out)
  | Extract_lanes out cnt ofs => out <- ExtractLanesAll ss out cnt ofs ;; ret (ss, out)
  | Extract_add_lanes inp out cnt ofs => out <- ExtractAndAddLanesAll ss inp out cnt ofs ;; ret (ss, out)
  end.
Fixpoint performs (cs : list call) (ss : list Z) : res (list Z * list (list Z)) :=
  match cs with
  | [] => ret (ss, [])
  | c :: cs' => '(ss, r) <- perform c ss ;; '(ss, rs) <- performs cs' ss ;; ret (ss, r :: rs)
  end.

(** The calls that the interface allows: bytes 0..199 of instances 0..3, buffers that are long enough, offsets
    that fit in an unsigned int, output parts that do not overlap; for Absorb, a step that is not 0 and not
    larger than what one step reads. *)
Definition bytes_call (l off n : Z) (buf : list Z) : Prop := 0 <= l < 4 /\ 0 <= off /\ 0 <= n <= zlen buf /\ off + n <= 200.
Definition lanes_call (cnt ofs : Z) (buf : list Z) : Prop :=
  0 <= cnt <= 25 /\ 0 <= ofs /\ 8 * (3 * ofs) < 2 ^ 32 /\ 8 * (3 * ofs + cnt) <= zlen buf.
Definition allowed (c : call) : Prop :=
  match c with
  | Initialize => True
  | Add_byte l b off => 0 <= l < 4 /\ 0 <= b < 256 /\ 0 <= off < 200
  | Add_bytes l d off n => bytes_call l off n d /\ bytes_ok d
  | Overwrite_bytes l d off n => bytes_call l off n d /\ bytes_ok d
  | Overwrite_zeroes l n => 0 <= l < 4 /\ 0 <= n <= 200
  | Add_lanes d cnt ofs => lanes_call cnt ofs d /\ bytes_ok d
  | Overwrite_lanes d cnt ofs => lanes_call cnt ofs d /\ bytes_ok d
  | Permute _ => True
  | Absorb _ d cnt lop los len => bytes_ok d /\ 0 <= cnt <= 25 /\ 0 <= lop /\ 0 < los <= 3 * lop + cnt /\
      8 * (3 * lop + cnt) < 2 ^ 32 /\ 0 <= len <= zlen d /\ len < 2 ^ 64
  | Extract_bytes l out off n => bytes_call l off n out
  | Extract_add_bytes l inp out off n => bytes_call l off n out /\ n <= zlen inp /\ bytes_ok inp
  | Extract_lanes out cnt ofs => lanes_call cnt ofs out /\ cnt <= ofs
  | Extract_add_lanes inp out cnt ofs => lanes_call cnt ofs out /\ lanes_call cnt ofs inp /\ bytes_ok inp /\ cnt <= ofs
  end.

(** What a call does to state i of the four. *)
Definition nr_of (full : bool) : Z := if full then 24 else 12.
Definition effect (i : Z) (S : list Z) (c : call) : list Z :=
  match c with
  | Initialize => zrep 200 0
  | Add_byte l b off => if i =? l then add_at off [b] S else S
  | Add_bytes l d off n => if i =? l then add_at off (zslice d 0 n) S else S
  | Overwrite_bytes l d off n => if i =? l then put_at off (zslice d 0 n) S else S
  | Overwrite_zeroes l n => if i =? l then put_at 0 (zrep n 0) S else S
  | Add_lanes d cnt ofs => add_at 0 (part d cnt ofs i) S
  | Overwrite_lanes d cnt ofs => put_at 0 (part d cnt ofs i) S
  | Permute full => permute (nr_of full) S
  | Absorb full d cnt lop los len => absorbn (nr_of full) d cnt lop los (blocks cnt lop los len) i S
  | Extract_bytes _ _ _ _ | Extract_add_bytes _ _ _ _ _ | Extract_lanes _ _ _ | Extract_add_lanes _ _ _ _ => S
  end.
(** What the caller gets if the four states are S 0, ..., S 3. *)
Definition reply (S : Z -> list Z) (c : call) : list Z :=
  match c with
  | Extract_bytes l out off n => put_at 0 (get_at off n (S l)) out
  | Extract_add_bytes l inp out off n => put_at 0 (xor_bytes (zslice inp 0 n) (get_at off n (S l))) out
  | Extract_lanes out cnt ofs => put_parts ofs (fun l => get_at 0 (8 * cnt) (S l)) out
  | Extract_add_lanes inp out cnt ofs =>
      put_parts ofs (fun l => xor_bytes (part inp cnt ofs l) (get_at 0 (8 * cnt) (S l))) out
  | Absorb _ _ cnt lop los len => [8 * (los * blocks cnt lop los len)]
  | _ => []
  end.
Fixpoint replies (S : Z -> list Z) (cs : list call) : list (list Z) :=
  match cs with
  | [] => []
  | c :: cs' => reply S c :: replies (fun i => effect i (S i) c) cs'
  end.

(* ------------------------------------------------------------------ *)
(** * Proofs *)

Lemma given_put n f out0 out d : 0 <= n <= zlen out0 -> zlen d = n -> (forall j, 0 <= j < n -> znth d j = f j) ->
  given n f out0 out -> out = put_at 0 d out0.
Proof.
  intros Hn Hd H (Hl & HG). unfold put_at. apply list_ext; [rewrite zlen_zsplice; lia|]. intros j Hj.
  rewrite HG, znth_zsplice by lia. destruct (Z.leb_spec 0 j); [|lia]. cbn [andb]. rewrite Hd, Z.add_0_l, Z.sub_0_r.
  destruct (Z.ltb_spec j n); [|reflexivity]. now rewrite H by lia.
Qed.
Lemma bytes_zslice d n : bytes_ok d -> 0 <= n <= zlen d -> bytes_ok (zslice d 0 n).
Proof.
  intros Hd Hn. apply inrange_intro. rewrite zlen_zslice by lia. intros j Hj. rewrite znth_zslice by lia.
  apply inrange_znth_all; auto; lia.
Qed.
Lemma inst_zeroes l : 0 <= l < 4 -> inst l (zrep 800 0) = zrep 200 0.
Proof. intros Hl. apply inst_ext; [apply zlen_zrep; lia|]. intros k Hk. now rewrite !znth_zrep0. Qed.
Lemma st_ok_zeroes : st_ok (zrep 800 0).
Proof. split; [apply zlen_zrep; lia|]. apply inrange_intro. intros; rewrite znth_zrep0; lia. Qed.

(** Effects of the functions that change one instance. *)
Lemma one_instance l lo hi f (g : list Z -> list Z) ss ss' : st_ok ss -> 0 <= l < 4 -> done l lo hi f ss ss' ->
  (forall k, lo <= k < hi -> 0 <= f k < 256) -> inst l ss' = g (inst l ss) ->
  st_ok ss' /\ forall i, 0 <= i < 4 -> inst i ss' = if i =? l then g (inst i ss) else inst i ss.
Proof.
  intros Hok Hl HD Hf Hg. split; [eapply done_ok; eauto|]. intros i Hi. destruct (Z.eqb_spec i l) as [->|N]; [exact Hg|].
  eapply done_other; eauto.
Qed.
Lemma runs_of full : runs (nr_of full) (rounds_of full).
Proof. destruct full; [exact runs24|exact runs12]. Qed.
Lemma nr_range full : 0 <= nr_of full <= 24. Proof. destruct full; cbn; lia. Qed.

Lemma perform_wp c ss : st_ok ss -> allowed c ->
  wp (perform c ss) (fun '(ss', r) => st_ok ss' /\ (forall i, 0 <= i < 4 -> inst i ss' = effect i (inst i ss) c) /\
     r = reply (fun i => inst i ss) c).
Proof.
  intros Hok Ha. pose proof (proj1 Hok) as Hs.
  assert (BB : forall d j, bytes_ok d -> 0 <= znth d j < 256) by (intros; apply inrange_znth_all; auto; lia).
  destruct c; cbn [perform allowed effect reply] in *.
  - apply wp_bind. eapply wp_mono; [now apply InitializeAll_wp|]. intros ss' ->. apply wp_ret.
    split; [apply st_ok_zeroes|]. split; [intros i Hi; now apply inst_zeroes|reflexivity].
  - destruct Ha as (Hl & Hb & Ho). apply wp_bind. eapply wp_mono; [now apply AddByte_wp|]. intros ss' HD. apply wp_ret.
    cut (st_ok ss' /\ forall i, 0 <= i < 4 -> inst i ss' = if i =? l then add_at off [byte] (inst i ss) else inst i ss); [tauto|].
    apply (one_instance l off (off + 1) (fun k => Z.lxor (znth ss (pos l k)) byte) (add_at off [byte])); auto.
    + intros k Hk. apply lxor_byte; [now apply st_byte|exact Hb].
    + apply done_add; auto; [lia|]. change (zlen [byte]) with 1. destruct HD as (HD1 & HD2). split; [auto|].
      intros l' k Hl' Hk. rewrite HD2 by auto. destruct (l' =? l); cbn [andb]; [|reflexivity].
      destruct (Z.leb_spec off k); destruct (Z.ltb_spec k (off + 1)); cbn [andb]; try reflexivity.
      replace (k - off) with 0 by lia. reflexivity.
  - destruct Ha as ((Hl & Ho & Hn & Hon) & Hd). apply wp_bind. eapply wp_mono; [now apply AddBytes_wp|]. intros ss' HD. cbv beta in HD. apply wp_ret.
    cut (st_ok ss' /\ forall i, 0 <= i < 4 -> inst i ss' = if i =? l then add_at off (zslice data 0 n) (inst i ss) else inst i ss); [tauto|].
    eapply (one_instance l off (off + n) _ (add_at off (zslice data 0 n))); [exact Hok|exact Hl|exact HD| |].
    + intros k Hk. cbv beta. apply lxor_byte; [now apply st_byte|now apply BB].
    + apply done_add; auto. rewrite zlen_zslice by lia. destruct HD as (HD1 & HD2). split; [auto|].
      intros l' k Hl' Hk. rewrite HD2 by auto. destruct (l' =? l); cbn [andb]; [|reflexivity].
      destruct (Z.leb_spec off k); destruct (Z.ltb_spec k (off + n)); cbn [andb]; try reflexivity.
      rewrite znth_zslice by lia. reflexivity.
  - destruct Ha as ((Hl & Ho & Hn & Hon) & Hd). apply wp_bind. eapply wp_mono; [now apply OverwriteBytes_wp|]. intros ss' HD. cbv beta in HD. apply wp_ret.
    cut (st_ok ss' /\ forall i, 0 <= i < 4 -> inst i ss' = if i =? l then put_at off (zslice data 0 n) (inst i ss) else inst i ss); [tauto|].
    eapply (one_instance l off (off + n) _ (put_at off (zslice data 0 n))); [exact Hok|exact Hl|exact HD| |].
    + intros k Hk. cbv beta. now apply BB.
    + apply done_put; auto; [rewrite zlen_zslice; lia|]. rewrite zlen_zslice by lia. destruct HD as (HD1 & HD2). split; [auto|].
      intros l' k Hl' Hk. rewrite HD2 by auto. destruct (l' =? l); cbn [andb]; [|reflexivity].
      destruct (Z.leb_spec off k); destruct (Z.ltb_spec k (off + n)); cbn [andb]; try reflexivity.
      rewrite znth_zslice by lia. reflexivity.
  - destruct Ha as (Hl & Hn). apply wp_bind. eapply wp_mono; [now apply OverwriteWithZeroes_wp|]. intros ss' HD. cbv beta in HD. apply wp_ret.
    cut (st_ok ss' /\ forall i, 0 <= i < 4 -> inst i ss' = if i =? l then put_at 0 (zrep n 0) (inst i ss) else inst i ss); [tauto|].
    eapply (one_instance l 0 n _ (put_at 0 (zrep n 0))); [exact Hok|exact Hl|exact HD| |].
    + intros k Hk. lia.
    + apply done_put; auto; [lia|rewrite zlen_zrep; lia|]. rewrite zlen_zrep by lia. destruct HD as (HD1 & HD2). split; [auto|].
      intros l' k Hl' Hk. rewrite HD2 by auto. rewrite znth_zrep0. reflexivity.
  - destruct Ha as ((Hc & Ho & Hb & Hlen) & Hd). apply wp_bind. eapply wp_mono; [apply AddLanesAll_wp; auto; lia|]. intros ss' HD. cbv beta in HD. apply wp_ret.
    split; [|split; [|reflexivity]].
    + eapply doneall_ok; [exact Hok| |exact HD]. intros l k. apply lxor_byte; [now apply st_byte|now apply BB].
    + intros i Hi. rewrite (doneall_add 0 cnt ofs data ss ss' i) by (auto; lia). reflexivity.
  - destruct Ha as ((Hc & Ho & Hb & Hlen) & Hd). apply wp_bind. eapply wp_mono; [apply OverwriteLanesAll_wp; auto; lia|]. intros ss' HD. cbv beta in HD. apply wp_ret.
    split; [|split; [|reflexivity]].
    + eapply doneall_ok; [exact Hok| |exact HD]. intros l k. now apply BB.
    + intros i Hi. now apply doneall_put.
  - assert (P : wp (PermuteAll (rounds_of full) true ss) (fun ss' => st_ok ss' /\ forall i, 0 <= i < 4 -> inst i ss' = permute (nr_of full) (inst i ss))).
    { eapply wp_mono; [apply (PermuteAll_wp (nr_of full)); [apply nr_range|apply runs_of|exact Hok]|]. intros ss' (H1 & H2).
      split; [|exact H2]. apply st_ok_intro; [auto|]. intros l Hl. rewrite H2 by auto. apply permute_ok. }
    destruct full; apply wp_bind; (eapply wp_mono; [exact P|]); intros ss' (H1 & H2); apply wp_ret; auto.
  - destruct Ha as (Hd & Hc & Hlop & Hlos & Hb & Hlen & H64).
    apply wp_bind. eapply wp_mono; [apply (FastLoop_wp (nr_of full)); auto; [apply nr_range|apply runs_of]|].
    intros (ss', o) (H1 & Eo & H2). apply wp_ret. split; [|split; [exact H2|now rewrite Eo]].
    apply st_ok_intro; [auto|]. intros l Hl. rewrite H2 by auto.
    assert (Hb0 : 0 <= blocks cnt lop los len).
    { unfold blocks. destruct (Z.ltb_spec len (8 * (3 * lop + cnt))); [lia|].
      pose proof (Z.div_pos (len - 8 * (3 * lop + cnt)) (8 * los) ltac:(lia) ltac:(lia)). lia. }
    destruct (Z.eqb_spec (blocks cnt lop los len) 0) as [->|N]; [apply inst_ok; auto|].
    replace (blocks cnt lop los len) with (blocks cnt lop los len - 1 + 1) by lia. rewrite absorbn_succ by lia. apply permute_ok.
  - destruct Ha as (Hl & Ho & Hn & Hon). apply wp_bind. eapply wp_mono; [now apply ExtractBytes_wp|]. intros o HG. apply wp_ret.
    split; [exact Hok|]. split; [reflexivity|]. eapply given_put; [| | |exact HG]; [lia|apply zlen_zslice; rewrite ?zlen_inst; lia|].
    intros j Hj. unfold get_at. rewrite znth_zslice, znth_inst by lia. reflexivity.
  - destruct Ha as ((Hl & Ho & Hn & Hon) & Hi & Hin). apply wp_bind. eapply wp_mono; [apply ExtractAndAddBytes_wp; auto|]. intros o HG. apply wp_ret.
    split; [exact Hok|]. split; [reflexivity|].
    assert (ZX : zlen (zslice inp 0 n) = n) by (apply zlen_zslice; lia).
    eapply given_put; [| | |exact HG]; [lia|unfold xor_bytes; rewrite zlen_ztab; lia|].
    intros j Hj. unfold xor_bytes, get_at. rewrite znth_ztab by lia. rewrite !znth_zslice, znth_inst by lia. reflexivity.
  - destruct Ha as ((Hc & Ho & Hb & Hlen) & Hco). apply wp_bind. eapply wp_mono; [apply ExtractLanesAll_wp; auto; lia|]. intros o HG. apply wp_ret.
    split; [exact Hok|]. split; [reflexivity|]. eapply given4_list; [| | |exact HG]; [lia|lia|].
    intros l Hl. split; [apply zlen_zslice; rewrite ?zlen_inst; lia|]. intros t Ht. unfold get_at. rewrite znth_zslice, znth_inst by lia. reflexivity.
  - destruct Ha as ((Hc & Ho & Hb & Hlen) & (_ & _ & _ & Hlen2) & Hin & Hco). apply wp_bind. eapply wp_mono; [apply ExtractAndAddLanesAll_wp; auto; lia|]. intros o HG. apply wp_ret.
    split; [exact Hok|]. split; [reflexivity|]. eapply given4_list; [| | |exact HG]; [lia|lia|].
    intros l Hl. pose proof (zlen_part inp cnt ofs l Hl ltac:(lia) Ho Hlen2) as ZP.
    split; [unfold xor_bytes; rewrite zlen_ztab; lia|]. intros t Ht.
    unfold xor_bytes, get_at. rewrite znth_ztab by lia. rewrite znth_part, znth_zslice, znth_inst by lia. reflexivity.
Qed.

Lemma reply_ext S S' c : (forall i, 0 <= i < 4 -> S i = S' i) -> allowed c -> reply S c = reply S' c.
Proof.
  intros H Ha. destruct c; cbn [reply allowed] in *; try reflexivity.
  - destruct Ha as (Hl & _). now rewrite H.
  - destruct Ha as ((Hl & _) & _). now rewrite H.
  - unfold put_parts. rewrite !H by lia. reflexivity.
  - unfold put_parts. rewrite !H by lia. reflexivity.
Qed.
Lemma replies_ext cs : forall S S', (forall i, 0 <= i < 4 -> S i = S' i) -> Forall allowed cs -> replies S cs = replies S' cs.
Proof.
  induction cs as [|c cs IH]; intros S S' H Ha; [reflexivity|]. apply Forall_cons_iff in Ha. destruct Ha as (Ha & Has).
  cbn [replies]. rewrite (reply_ext S S' c H Ha). f_equal. apply IH; auto. intros i Hi. now rewrite H.
Qed.

Lemma performs_wp cs : forall ss, st_ok ss -> Forall allowed cs ->
  wp (performs cs ss) (fun '(ss', rs) => st_ok ss' /\ (forall i, 0 <= i < 4 -> inst i ss' = fold_left (effect i) cs (inst i ss)) /\
     rs = replies (fun i => inst i ss) cs).
Proof.
  induction cs as [|c cs IH]; intros ss Hok Ha.
  - apply wp_ret. split; [exact Hok|]. split; reflexivity.
  - apply Forall_cons_iff in Ha. destruct Ha as (Ha & Has). cbn [performs].
    apply wp_bind. eapply wp_mono; [now apply perform_wp|]. intros (ss1, r) (H1 & E1 & ->).
    apply wp_bind. eapply wp_mono; [now apply IH|]. intros (ss2, rs) (H2 & E2 & ->).
    apply wp_ret. split; [exact H2|]. split.
    + intros i Hi. cbn [fold_left]. rewrite E2, E1 by auto. reflexivity.
    + cbn [replies]. f_equal. apply replies_ext; auto.
Qed.

(* ------------------------------------------------------------------ *)
(** * Theorems *)

(** After InitializeAll on any memory (also memory that was never written), any sequence of allowed calls
    returns, without undefined behaviour.  It acts on four separate states of 200 bytes that start as zeroes, and
    every call delivers what the specification says. *)
Theorem C47_history : forall mem cs, zlen mem = 800 -> Forall allowed cs ->
  exists ss rs, returns (performs (Initialize :: cs) mem) (ss, [] :: rs) /\
    (forall i, 0 <= i < 4 -> inst i ss = fold_left (effect i) cs (zrep 200 0)) /\
    rs = replies (fun _ => zrep 200 0) cs.
Proof.
  intros mem cs Hm Ha.
  destruct (InitializeAll_wp mem Hm) as (z & t & E & ->).
  destruct (performs_wp cs (zrep 800 0) st_ok_zeroes Ha) as ((ss, rs) & t2 & E2 & _ & H1 & H2).
  exists ss, rs. split; [|split].
  - cbn [performs perform]. unfold returns, bind. rewrite E. cbn [ret]. rewrite E2. cbn [ret]. eexists; reflexivity.
  - intros i Hi. rewrite H1, inst_zeroes by auto. reflexivity.
  - rewrite H2. apply replies_ext; auto. intros i Hi. now apply inst_zeroes.
Qed.
Print Assumptions C47_history.

(** The rule for Absorb is needed.  First, what one step does with 32 bytes of data. *)
Lemma absorb_step ss : st_ok ss ->
  exists s1 t1 s2 t2, AddLanesAll ss (zrep 32 0) 0 1 1 = Ok s1 t1 /\ PermuteAll rounds24 true s1 = Ok s2 t2 /\ st_ok s2.
Proof.
  intros Hok.
  assert (Hd : bytes_ok (zrep 32 0)) by (apply inrange_intro; intros; rewrite znth_zrep0; lia).
  assert (Zd : zlen (zrep 32 0) = 32) by (apply zlen_zrep; lia).
  assert (Ha : allowed (Add_lanes (zrep 32 0) 1 1)) by (cbn [allowed]; unfold lanes_call; rewrite Zd; repeat split; auto; lia).
  destruct (perform_wp _ ss Hok Ha) as ((s1, r1) & t1 & E1 & H1 & _).
  destruct (perform_wp (Permute true) s1 H1 I) as ((s2, r2) & t2 & E2 & H2 & _).
  cbn [perform] in E1, E2. unfold bind in E1, E2. change (PermuteAll_24rounds true s1) with (PermuteAll rounds24 true s1) in E2.
  destruct (AddLanesAll ss (zrep 32 0) 0 1 1) as [x tx|e]; [|discriminate]. cbn in E1. injection E1; intros _ _ ->.
  destruct (PermuteAll rounds24 true s1) as [y ty|e] eqn:EP; [|discriminate]. cbn in E2. injection E2; intros _ _ ->.
  exists s1, tx, s2, ty. split; [reflexivity|]. split; [exact EP|exact H2].
Qed.

Lemma loop_go {A} f (body : A -> res (A * bool)) s s' t e : body s = Ok (s', true) t -> loop f body s' = Err e ->
  loop (S f) body s = Err e.
Proof. intros E1 E2. cbn [loop]. unfold bind at 1. rewrite E1. unfold bind, emit. now rewrite E2. Qed.
Lemma loop_err {A} f (body : A -> res (A * bool)) s e : body s = Err e -> loop (S f) body s = Err e.
Proof. intros E1. cbn [loop]. unfold bind at 1. now rewrite E1. Qed.
Lemma out_of_data s : AddLanesAll s (zrep 32 0) 40 1 1 = Err UB_oob.
Proof. reflexivity. Qed.

(** If the step [los] is larger than what one step reads, the remaining length wraps around and the function
    reads outside the data, although the caller gave the true length of the data. *)
Theorem C47_large_step_refuted : exists cnt lop los data, 0 < cnt <= 25 /\ 0 < lop /\ 0 < los < 2 ^ 10 /\
  forall ss fuel, st_ok ss -> (2 <= fuel)%nat ->
  FastLoop_Absorb rounds24 true fuel ss cnt lop los data (zlen data) = Err UB_oob.
Proof.
  exists 1, 1, 5, (zrep 32 0). split; [lia|]. split; [lia|]. split; [lia|]. intros ss fuel Hok Hf.
  destruct fuel as [|[|f]]; [lia|lia|].
  destruct (absorb_step ss Hok) as (s1 & t1 & s2 & t2 & E1 & E2 & _).
  unfold FastLoop_Absorb. cbv zeta.
  change (1 =? 21) with false. change (zlen (zrep 32 0)) with 32. change (u32 (u32 (u32 (1 * 3) + 1) * 8)) with 32. change (u32 (5 * 8)) with 40.
  unfold branch at 1. unfold bind at 1, emit at 1.
  erewrite (loop_go (S f) _ _ (s2, u64 (32 - 40), 0 + 40)); [reflexivity| |].
  - unfold branch, emit, bind. change (32 <=? 32) with true. cbn match. rewrite E1, E2. reflexivity.
  - apply loop_err. unfold branch, emit. change (32 <=? u64 (32 - 40)) with true. change (0 + 40) with 40. unfold bind at 1.
    cbn match. rewrite out_of_data. reflexivity.
Qed.
Print Assumptions C47_large_step_refuted.

(** With the step 0 the function does not return. *)
Theorem C47_zero_step_refuted : exists cnt lop data, 0 < cnt <= 25 /\ 0 < lop /\
  forall ss fuel, st_ok ss -> FastLoop_Absorb rounds24 true fuel ss cnt lop 0 data (zlen data) = Err OutOfFuel.
Proof.
  exists 1, 1, (zrep 32 0). split; [lia|]. split; [lia|]. intros ss fuel Hok.
  unfold FastLoop_Absorb. cbv zeta.
  change (1 =? 21) with false. change (zlen (zrep 32 0)) with 32. change (u32 (u32 (u32 (1 * 3) + 1) * 8)) with 32. change (u32 (0 * 8)) with 0.
  unfold branch at 1. unfold bind at 1, emit at 1.
  enough (L : forall s, st_ok s -> loop fuel (fun '(ss, dataByteLen, o) =>
        branch (32 <=? dataByteLen)
          (ss <- AddLanesAll ss (zrep 32 0) o 1 1 ;;
           ss <- PermuteAll rounds24 true ss ;;
           ret ((ss, u64 (dataByteLen - 0), o + 0), true))
          (ret ((ss, dataByteLen, o), false))) (s, 32, 0) = Err OutOfFuel) by (rewrite (L ss Hok); reflexivity).
  induction fuel as [|f IH]; intros s Hs; [reflexivity|].
  destruct (absorb_step s Hs) as (s1 & t1 & s2 & t2 & E1 & E2 & H2).
  eapply loop_go; [|exact (IH s2 H2)].
  unfold branch, emit, bind. change (32 <=? 32) with true. cbn match. rewrite E1, E2. reflexivity.
Qed.
Print Assumptions C47_zero_step_refuted.

(** A sequence of allowed calls in which every kind of call occurs. *)
Example C47_nonvacuous : Forall allowed
  [Add_byte 3 31 199; Add_bytes 1 [1; 2; 3; 4; 5; 6; 7; 8; 9; 10; 11; 12] 5 12; Overwrite_bytes 2 [7; 8; 9] 197 3;
   Overwrite_zeroes 1 11; Add_lanes (zrep 184 3) 17 2; Overwrite_lanes (zrep 184 3) 20 1; Permute true; Permute false;
   Absorb true (zrep 336 5) 21 0 21 336; Absorb false (zrep 200 5) 2 5 3 200; Extract_bytes 3 (zrep 9 0) 190 9;
   Extract_add_bytes 0 (zrep 9 1) (zrep 8 0) 3 8; Extract_lanes (zrep 640 0) 20 20; Extract_add_lanes (zrep 104 1) (zrep 104 0) 3 3; Initialize].
Proof.
  assert (B : forall n v, 0 <= v < 256 -> bytes_ok (zrep n v)).
  { intros n v Hv. apply Forall_forall. intros x Hx. apply repeat_spec in Hx. lia. }
  repeat constructor; cbn [allowed]; unfold bytes_call, lanes_call, bytes_ok, inrange; repeat split;
    try (vm_compute; congruence); try (apply B; lia); repeat constructor; lia.
Qed.
(** The effects on one state are not trivial. *)
Example C47_nonvacuous_effect :
  get_at 3 6 (fold_left (effect 1) [Add_bytes 1 [1; 2; 3; 4; 5] 3 5; Overwrite_bytes 1 [9; 9] 4 2; Add_byte 1 255 7; Add_byte 2 1 3] (zrep 200 0))
    = [1; 9; 9; 4; 250; 0] /\
  blocks 21 0 21 336 = 2 /\ blocks 2 5 3 200 = 3.
Proof. vm_compute. auto. Qed.
