(** Property C46: the SHAKE stream handed out in pieces. *)
From Verif Require Import CSem Params Fips202 KeccakSpec KeccakProofs ShakeProofs PropShake Fips202x4
  Fips202x4Proofs PropShake4x ShakeInc.

(* ------------------------------------------------------------------ *)
(** * Vocabulary *)

(** What one buffer holds after its request: the [n] bytes of the stream from position [at_] on at its
    front, and behind them what it held before. *)
Definition piece (stream out : list Z) (at_ n : Z) : list Z := zslice stream at_ n ++ skipn (Z.to_nat n) out.

(** What the buffers hold after a list of requests (buffer, number of bytes) that starts at position
    [at_] of the stream: consecutive pieces. *)
Fixpoint pieces (stream : list Z) (at_ : Z) (reqs : list (list Z * Z)) : list (list Z) :=
  match reqs with
  | [] => []
  | (out, n) :: reqs' => piece stream out at_ n :: pieces stream (at_ + n) reqs'
  end.

(** Requests in blocks of [r] bytes, as numbers of bytes. *)
Definition in_bytes (r : Z) (reqs : list (list Z * Z)) : list (list Z * Z) :=
  map (fun q => (fst q, r * snd q)) reqs.
Definition total (reqs : list (list Z * Z)) : Z := fold_right (fun q t => snd q + t) 0 reqs.
(** Every buffer has room for its request. *)
Definition room (reqs : list (list Z * Z)) : Prop := Forall (fun q => 0 <= snd q <= zlen (fst q)) reqs.

(** The requests seen by instance [l] of the four-way function, in bytes (whole blocks only). *)
Definition requests_of (l : Z) (reqs : list ((list Z * list Z * list Z * list Z) * Z)) : list (list Z * Z) :=
  map (fun q => (sel4 (fst q) l, 168 * (snd q / 168))) reqs.

(* ------------------------------------------------------------------ *)
(** * Proofs *)

Lemma room_total reqs : room reqs -> 0 <= total reqs.
Proof. induction 1 as [|q reqs H _ IH]; cbn [total fold_right]; [lia|]. fold (total reqs). lia. Qed.

Lemma iter_add {A} (f : A -> A) n m : forall x, iter (n + m) f x = iter n f (iter m f x).
Proof.
  induction m as [|m IH]; intros x.
  - rewrite Nat.add_0_r. reflexivity.
  - replace (n + S m)%nat with (S (n + m)) by lia. cbn [iter]. apply IH.
Qed.

(** One piece: the bytes of the stream from [at_], where the state stands at block at_ / r. *)
Lemma piece_of r (S : list bool) k n out h T : 0 < r -> 0 <= k -> 0 <= n -> n * r <= zlen out -> (k + n) * r <= T ->
  zlen h = zlen out ->
  (forall j, 0 <= j -> znth h j = if j <? n * r then xof_byte r (iter (Z.to_nat k) keccak_f S) j else znth out j) ->
  h = piece (ztab T (xof_byte r S)) out (k * r) (r * n).
Proof.
  intros Hr Hk Hn Hroom HT Hl Hj. unfold piece. rewrite (Z.mul_comm r n).
  assert (0 <= k * r) by (apply Z.mul_nonneg_nonneg; lia).
  assert (0 <= n * r) by (apply Z.mul_nonneg_nonneg; lia).
  assert (ZL : zlen (zslice (ztab T (xof_byte r S)) (k * r) (n * r)) = n * r)
    by (apply zlen_zslice; rewrite ?zlen_ztab; lia).
  assert (SK : zlen (skipn (Z.to_nat (n * r)) out) = zlen out - n * r) by (unfold zlen in *; rewrite skipn_length; lia).
  apply list_ext; [rewrite zlen_app, ZL, SK; lia|]. intros i Hi. rewrite Hj by lia.
  destruct (Z.ltb_spec i (n * r)).
  - rewrite znth_app1 by lia. rewrite znth_zslice, znth_ztab by lia.
    unfold xof_byte. rewrite <- iter_add.
    replace ((k * r + i) / r) with (k + i / r) by (rewrite Z.div_add_l by lia; reflexivity).
    replace ((k * r + i) mod r) with (i mod r)
      by (replace (k * r + i) with (i + k * r) by lia; rewrite Z.mod_add by lia; reflexivity).
    pose proof (Z.div_pos i r ltac:(lia) ltac:(lia)).
    do 2 f_equal. lia.
  - rewrite znth_app2 by lia. rewrite ZL.
    unfold znth. destruct (Z.ltb_spec i 0); [lia|]. destruct (Z.ltb_spec (i - n * r) 0); [lia|].
    rewrite nth_skipn_d. f_equal. lia.
Qed.

Lemma squeezes_wp r w S : r = 8 * w -> 1 <= w <= 25 -> forall reqs k s T, 0 <= k -> room (in_bytes r reqs) ->
  k * r + total (in_bytes r reqs) <= T -> zlen s = 25 -> u64s_ok s ->
  keccak_f (lanes_bits s) = iter (Z.to_nat k) keccak_f S ->
  wp (squeezes r s reqs) (fun outs => outs = pieces (ztab T (xof_byte r S)) (k * r) (in_bytes r reqs)).
Proof.
  intros Hr Hw. induction reqs as [|(out, n) reqs IH]; intros k s T Hk Hroom HT Hs Hok HS.
  - apply wp_ret. reflexivity.
  - unfold in_bytes in Hroom, HT; cbn [map fst snd] in Hroom, HT. fold (in_bytes r reqs) in Hroom, HT.
    apply Forall_cons_iff in Hroom. destruct Hroom as (H1 & Hroom). cbn [fst snd] in H1.
    cbn [total fold_right snd] in HT. fold (total (in_bytes r reqs)) in HT.
    pose proof (room_total _ Hroom) as Ht. assert (0 <= n) by nia.
    cbn [squeezes in_bytes map pieces fst snd]. fold (in_bytes r reqs).
    apply wp_bind. eapply wp_mono; [apply (squeezeblocks_wp out n s r w (iter (Z.to_nat k) keccak_f S) Hr Hw); auto; lia|].
    intros (h, s1) (Hh & Hj & Hs1 & Hok1 & HS1).
    apply wp_bind. eapply wp_mono; [apply (IH (k + n) s1 T); auto; try lia|].
    { rewrite HS1, <- iter_add. f_equal. lia. }
    intros outs ->. apply wp_ret.
    replace ((k + n) * r) with (k * r + r * n) by lia. f_equal.
    apply piece_of; auto; lia.
Qed.

Lemma squeezes4x_wp (S : Z -> list bool) : forall reqs k ss T, 0 <= k -> zlen ss = 100 -> u64s_ok ss ->
  (forall l, 0 <= l < 4 -> room (requests_of l reqs) /\ k * 168 + total (requests_of l reqs) <= T /\
     keccak_f (lanes_bits (mproj l ss)) = iter (Z.to_nat k) keccak_f (S l)) ->
  wp (squeezes4x true ss reqs) (fun outs => forall l, 0 <= l < 4 ->
     map (fun q => sel4 q l) outs = pieces (ztab T (xof_byte 168 (S l))) (k * 168) (requests_of l reqs)).
Proof.
  induction reqs as [|(out, b) reqs IH]; intros k ss T Hk Hs Hok H.
  - apply wp_ret. reflexivity.
  - set (n := b / 168).
    assert (H1 : forall l, 0 <= l < 4 -> 0 <= n /\ n * 168 <= zlen (sel4 out l) /\ room (requests_of l reqs) /\
       k * 168 + (168 * n + total (requests_of l reqs)) <= T).
    { intros l Hl. destruct (H l Hl) as (Hroom & HT & _). unfold requests_of in Hroom, HT; cbn [map fst snd] in Hroom, HT.
      fold (requests_of l reqs) in Hroom, HT. apply Forall_cons_iff in Hroom. destruct Hroom as (R1 & Hroom).
      cbn [fst snd] in R1. cbn [total fold_right snd] in HT. fold (total (requests_of l reqs)) in HT. fold n in R1, HT.
      repeat split; auto; lia. }
    assert (Hn : 0 <= n) by (apply (H1 0); lia).
    cbn [squeezes4x]. unfold shake128_squeezeblocks4x. fold n.
    apply wp_bind. eapply wp_mono; [apply (squeeze4x_wp out n ss 168 21 (fun l => iter (Z.to_nat k) keccak_f (S l))); auto; try lia|].
    { intros l Hl. split; [apply H1; auto|apply H; auto]. }
    intros (h, s1) (Hs1 & Hok1 & Hh).
    apply wp_bind. eapply wp_mono; [apply (IH (k + n) s1 T); auto; try lia|].
    { intros l Hl. destruct (H1 l Hl) as (_ & _ & R & HT). destruct (Hh l Hl) as (_ & E).
      split; [exact R|split; [lia|]]. rewrite E, <- iter_add. f_equal. lia. }
    intros outs Ho. apply wp_ret. intros l Hl. cbn [map].
    unfold requests_of; cbn [map fst snd pieces]. fold (requests_of l reqs). fold n.
    destruct (H1 l Hl) as (_ & R & Hroom & HT). destruct (Hh l Hl) as ((Lh & Jh) & _).
    pose proof (room_total _ Hroom).
    replace (k * 168 + 168 * n) with ((k + n) * 168) by lia. rewrite (Ho l Hl). f_equal.
    apply piece_of; auto; lia.
Qed.

(* ------------------------------------------------------------------ *)
(** * C46 *)

(** After one absorb into a zeroed state, any list of squeezeblocks calls, each for any number of blocks
    and into its own buffer, hands out consecutive pieces of the FIPS 202 stream of the message: no byte
    twice, none left out, nothing behind the requested blocks written. *)
Theorem C46_shake128 : forall inp reqs, bytes_ok inp -> room (in_bytes 168 reqs) ->
  exists s, returns (shake_absorb 168 (zrep 25 0) inp (zlen inp)) s /\
    returns (squeezes 168 s reqs)
      (pieces (SHAKE128 inp (total (in_bytes 168 reqs))) 0 (in_bytes 168 reqs)).
Proof.
  intros inp reqs Hi Hroom. pose proof (room_total _ Hroom).
  destruct (keccak_absorb_wp 168 21 inp eq_refl ltac:(lia) Hi) as (s & t & E & Hs & Hok & Hf).
  exists s; split; [exists t; exact E|]. apply wp_returns.
  rewrite SHAKE128_r, SHAKE_r_bytes by (auto; lia).
  apply (squeezes_wp 168 21 (shake_state 168 inp)) with (k := 0); auto; lia.
Qed.
Print Assumptions C46_shake128.
Theorem C46_shake256 : forall inp reqs, bytes_ok inp -> room (in_bytes 136 reqs) ->
  exists s, returns (shake_absorb 136 (zrep 25 0) inp (zlen inp)) s /\
    returns (squeezes 136 s reqs)
      (pieces (SHAKE256 inp (total (in_bytes 136 reqs))) 0 (in_bytes 136 reqs)).
Proof.
  intros inp reqs Hi Hroom. pose proof (room_total _ Hroom).
  destruct (keccak_absorb_wp 136 17 inp eq_refl ltac:(lia) Hi) as (s & t & E & Hs & Hok & Hf).
  exists s; split; [exists t; exact E|]. apply wp_returns.
  rewrite SHAKE256_r, SHAKE_r_bytes by (auto; lia).
  apply (squeezes_wp 136 17 (shake_state 136 inp)) with (k := 0); auto; lia.
Qed.
Print Assumptions C46_shake256.

(** The four-way functions: whatever the state held before, every instance hands out consecutive pieces
    of the stream of its own message. *)
Theorem C46_shake128_4x : forall ss i0 i1 i2 i3 reqs, zlen ss = 100 ->
  bytes_ok i0 -> bytes_ok i1 -> bytes_ok i2 -> bytes_ok i3 ->
  zlen i1 = zlen i0 -> zlen i2 = zlen i0 -> zlen i3 = zlen i0 ->
  (forall l, 0 <= l < 4 -> room (requests_of l reqs)) ->
  exists s outs, returns (shake128_absorb4x true ss i0 i1 i2 i3 (zlen i0)) s /\
    returns (squeezes4x true s reqs) outs /\
    forall l, 0 <= l < 4 -> map (fun q => sel4 q l) outs =
      pieces (SHAKE128 (sel4 (i0, i1, i2, i3) l) (total (requests_of l reqs))) 0 (requests_of l reqs).
Proof.
  intros ss i0 i1 i2 i3 reqs Hss B0 B1 B2 B3 I1 I2 I3 Hroom.
  assert (A : wp (shake128_absorb4x true ss i0 i1 i2 i3 (zlen i0)) (fun ss' => zlen ss' = 100 /\ u64s_ok ss' /\
     forall l, 0 <= l < 4 -> keccak_f (lanes_bits (mproj l ss')) = shake_state 168 (sel4 (i0, i1, i2, i3) l))).
  { unfold shake128_absorb4x; apply wp_bind.
    eapply wp_for with (I := fun i ss => zlen ss = 100 /\ forall j, 0 <= j < 4 * i -> znth ss j = 0).
    { lia. } { split; [exact Hss|intros; lia]. }
    { intros i s1 Hi (Hs & Hz). eapply wp_mono; [apply store256_wp; auto|].
      intros ss' (Hs' & Hj); split; [auto|]. intros j Hjj.
      replace j with (4 * (j / 4) + j mod 4) by dlia. rewrite Hj by dlia.
      destruct (Z.eqb_spec i (j / 4)).
      - unfold lane. repeat match goal with |- context [if ?c then _ else _] => destruct c end; reflexivity.
      - apply Hz. dlia. }
    intros s1 (Hs & Hz).
    assert (Hz' : forall j, znth s1 j = 0).
    { intros j. destruct (Z.ltb_spec j 0); [apply znth_neg; lia|].
      destruct (Z.ltb_spec j 100); [apply Hz; lia|apply znth_out; lia]. }
    apply (absorb4x_wp s1 168 21 i0 i1 i2 i3 (zlen i0)); auto using zlen_nonneg; try lia.
    intros l Hl; by4 Hl; cbn [sel4 Z.eqb Pos.eqb]; auto. }
  destruct A as (s & t & E & Hs & Hok & Hf).
  set (T := total (requests_of 0 reqs)).
  assert (ET : forall l, total (requests_of l reqs) = T).
  { intros l. unfold T, total, requests_of. clear. induction reqs as [|(o, n) reqs IH]; cbn [map fold_right snd]; [reflexivity|].
    f_equal. exact IH. }
  destruct (squeezes4x_wp (fun l => shake_state 168 (sel4 (i0, i1, i2, i3) l)) reqs 0 s T) as (outs & t' & E' & Ho); auto; try lia.
  { intros l Hl. split; [now apply Hroom|split; [rewrite ET; lia|now apply Hf]]. }
  exists s, outs. split; [exists t; exact E|split; [exists t'; exact E'|]].
  intros l Hl. rewrite (Ho l Hl), ET, SHAKE128_r.
  assert (0 <= T) by (unfold T; apply room_total, Hroom; lia).
  rewrite SHAKE_r_bytes; [reflexivity|lia|lia|].
  by4 Hl; cbn [sel4 Z.eqb Pos.eqb]; assumption.
Qed.
Print Assumptions C46_shake128_4x.

(** ** The hypotheses can be met: two requests of two and one blocks, one of them with room to spare. *)
Example C46_nonvacuous :
  let reqs := [(uninit 336, 2); (uninit 170, 1)] in
  bytes_ok [97; 98; 99] /\ room (in_bytes 168 reqs) /\ total (in_bytes 168 reqs) = 504 /\
  match pieces (map (fun i => i) (zseq 504)) 0 (in_bytes 168 reqs) with
  | [a; b] => znth a 335 = 335 /\ znth b 0 = 336 /\ znth b 167 = 503 /\ znth b 168 = -1 /\ znth b 169 = -1
  | _ => False
  end.
Proof.
  cbv zeta. split; [repeat constructor; lia|].
  split; [apply Forall_cons; [vm_compute; split; congruence|apply Forall_cons; [vm_compute; split; congruence|constructor]]|].
  split; [reflexivity|]. vm_compute. repeat split.
Qed.
