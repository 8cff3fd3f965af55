(** C20: randombytes fills the whole buffer, and how it connects to key generation. *)
From Verif Require Import CSem Params Random PropMatrix Kem FrodoSpec KemWp PropKem PropKem2.

(** m bytes of the stream from position pos. *)
Definition from_stream (st : Z -> Z) (pos m : Z) : list Z := ztab m (fun i => st (pos + i)).
(** The rest of a schedule. *)
Definition later {A} (rest all : list A) : Prop := exists used, all = used ++ rest.

Lemma later_refl {A} (l : list A) : later l l. Proof. exists []; reflexivity. Qed.
Lemma later_cons {A} (x : A) r l : later r l -> later r (x :: l).
Proof. intros (u & ->); exists (x :: u); reflexivity. Qed.
Lemma later_trans {A} (a b c : list A) : later a b -> later b c -> later a c.
Proof. intros (u & ->) (v & ->); exists (v ++ u); apply app_assoc. Qed.
Lemma later_len {A} (a b : list A) : later a b -> (length a <= length b)%nat.
Proof. intros (u & ->); rewrite app_length; lia. Qed.
Lemma bind_inv {A B} (m : res A) (f : A -> res B) v : returns (bind m f) v -> exists a, returns m a /\ returns (f a) v.
Proof.
  intros (t & E). unfold bind in E. destruct m as [a t1|e]; [|discriminate]. exists a. split; [exists t1; reflexivity|].
  destruct (f a) as [b t2|e] eqn:F; [|discriminate]. injection E; intros _ ->. exists t2; reflexivity.
Qed.
Lemma ret_inv {A} (a v : A) : returns (ret a) v -> a = v.
Proof. intros (t & E); injection E; auto. Qed.
Lemma put_inv l o x v : returns (put l o x) v -> 0 <= o /\ o + zlen x <= zlen l /\ v = zsplice l o x.
Proof.
  intros (t & E). unfold put in E. destruct (Z.leb_spec 0 o); [|discriminate]. destruct (Z.leb_spec (o + zlen x) (zlen l)); [|discriminate].
  injection E; auto.
Qed.
Lemma i32_inv x v : returns (i32 x) v -> v = x /\ -2147483648 <= x < 2147483648.
Proof.
  intros (t & E). unfold i32 in E. destruct (Z.leb_spec (-2147483648) x); [|discriminate]. destruct (Z.ltb_spec x 2147483648); [|discriminate].
  injection E; auto.
Qed.

Lemma read_retry_inv st a : forall pos buf count n v, 0 <= n -> returns (read_retry st a pos buf count n) v ->
  exists r a', v = (zsplice buf count (from_stream st pos r), r, a', pos + r) /\ r <= n /\ 0 <= count /\
   (0 <= r -> count + r <= zlen buf) /\ later a' a /\ (length a' < length a)%nat /\ exists k, In (RGive k) a /\ r = Z.min k n.
Proof.
  induction a as [|[|k] a IH]; intros pos buf count n v Hn H; cbn [read_retry] in H.
  - destruct H as (t & E); discriminate.
  - apply bind_inv in H. destruct H as (u & _ & H). destruct (IH _ _ _ _ _ Hn H) as (r & a' & -> & ? & ? & ? & ? & ? & k & ? & ?).
    exists r, a'. split; [reflexivity|]. split; [auto|]. split; [auto|]. split; [auto|]. split; [apply later_cons; auto|].
    cbn [length]. split; [lia|]. exists k; cbn [In]; auto.
  - apply bind_inv in H. destruct H as (b & H1 & H). apply bind_inv in H. destruct H as (u & _ & H).
    apply ret_inv in H. subst v. apply put_inv in H1. destruct H1 as (H1 & H2 & ->).
    exists (Z.min k n), a. split; [reflexivity|]. split; [lia|]. split; [lia|]. 
    split; [intros; rewrite zlen_ztab in H2 by lia; lia|]. split; [apply later_cons, later_refl|]. cbn [length]; split; [lia|].
    exists k; cbn [In]; auto.
Qed.
Definition good (a : list read_answer) : Prop := forall k, In (RGive k) a -> 0 <= k.
Lemma good_later a b : later a b -> good b -> good a.
Proof. intros (u & ->) H k Hk. apply H, in_or_app; auto. Qed.

Lemma loop_inv st m : forall fuel buf count n a pos v, good a -> 0 <= count -> 0 <= n ->
  returns (loop fuel (fun '(buf, count, n, a, pos) =>
      if 0 <? n then
        '(buf, r, a, pos) <- read_retry st a pos buf count n ;;
        count <- i32 (count + r) ;;
        n <- i32 (n - r) ;;
        ret ((buf, count, n, a, pos), true)
      else ret ((buf, count, n, a, pos), false)) (buf, count, n, a, pos)) v ->
  m = count + n ->
  exists a', v = (zsplice buf count (from_stream st pos n), m, 0, a', pos + n) /\ later a' a /\ (0 < n -> m <= zlen buf).
Proof.
  induction fuel as [|fuel IH]; intros buf count n a pos v Hg Hc Hn H Em; [destruct H as (t & E); discriminate|].
  cbn [loop] in H. destruct (Z.ltb_spec 0 n).
  - apply bind_inv in H. destruct H as ([s' go] & H1 & H). apply bind_inv in H1. destruct H1 as (v1 & H1 & H2).
    destruct (read_retry_inv _ _ _ _ _ _ _ Hn H1) as (r & a' & -> & Hr & _ & Hb & Hl & _ & k & Hk & Er).
    assert (0 <= r) by (specialize (Hg _ Hk); lia). specialize (Hb ltac:(lia)).
    apply bind_inv in H2. destruct H2 as (c' & Hq & H2). apply i32_inv in Hq. destruct Hq as (-> & _).
    apply bind_inv in H2. destruct H2 as (n' & Hq & H2). apply i32_inv in Hq. destruct Hq as (-> & _).
    apply ret_inv in H2. injection H2; intros <- <-. apply bind_inv in H. destruct H as (u & _ & H). cbv iota in H.
    assert (Lf : zlen (from_stream st pos r) = r) by (apply zlen_ztab; lia).
    apply IH in H; [|apply (good_later a' a); auto|lia|lia|lia].
    destruct H as (a'' & -> & Hl2 & Hb2). exists a''.
    assert (Hb3 : 0 < n - r -> m <= zlen buf) by (intros Hp; specialize (Hb2 Hp); rewrite zlen_zsplice in Hb2; lia).
    assert (m <= zlen buf) by lia.
    split; [|split; [apply (later_trans _ a'); auto|auto]].
    f_equal; [|lia]. f_equal. f_equal. f_equal.
    assert (Lf2 : zlen (from_stream st (pos + r) (n - r)) = n - r) by (apply zlen_ztab; lia).
    assert (Lf3 : zlen (from_stream st pos n) = n) by (apply zlen_ztab; lia).
    assert (L1 : zlen (zsplice buf count (from_stream st pos r)) = zlen buf) by (apply zlen_zsplice; lia).
    apply list_ext; [rewrite !zlen_zsplice; lia|]. rewrite zlen_zsplice by lia. intros i Hi.
    rewrite !znth_zsplice by (rewrite ?L1; lia).
    rewrite Lf, Lf2, Lf3.
    destruct (Z.leb_spec (count + r) i), (Z.ltb_spec i (count + r + (n - r))), (Z.leb_spec count i), (Z.ltb_spec i (count + r)), (Z.ltb_spec i (count + n)); cbn [andb]; try reflexivity; try lia;
      unfold from_stream; rewrite !znth_ztab by lia; f_equal; lia.
  - apply bind_inv in H. destruct H as ([s' go] & H1 & H). apply ret_inv in H1. injection H1; intros <- <-.
    apply bind_inv in H. destruct H as (u & _ & H). cbv iota in H. apply ret_inv in H. subst v.
    assert (n = 0) by lia. subst n. exists a. split; [|split; [apply later_refl|lia]].
    replace m with count by lia. replace (pos + 0) with pos by lia. f_equal. f_equal. f_equal. f_equal.
    unfold from_stream. cbn. unfold zsplice. cbn.
    rewrite Nat.add_0_r, firstn_skipn. reflexivity.
Qed.

(* ------------------------------------------------------------------ *)
(** ** C20: what a successful call has done *)
(** For every schedule: on return the value is 0 and the first max(0, (int)nbytes) bytes
    of the buffer are the next bytes of the system's stream, in order; no byte of the
    stream is lost, repeated or left for the next call. *)
Theorem C20_exact : forall st s lock buf nbytes buf' rc lock' s',
  good (os_read s) ->
  returns (randombytes_nix st s lock buf nbytes) (buf', rc, lock', s') ->
  let m := Z.max 0 (to_int nbytes) in
  rc = 0 /\ buf' = stored buf 0 (from_stream st (os_pos s) m) /\ os_pos s' = os_pos s + m /\
  (0 < m -> m <= zlen buf) /\ later (os_read s') (os_read s) /\ lock' <> -1.
Proof.
  intros st s lock buf nbytes buf' rc lock' s' Hg H m. unfold randombytes_nix in H. cbv zeta in H.
  apply bind_inv in H. destruct H as ([lk o] & H1 & H). 
  assert (Hlk : lk <> -1).
  { unfold branch in H1. apply bind_inv in H1. destruct H1 as (u & _ & H1). destruct (Z.eqb_spec lock (-1)).
    - clear H. revert H1. generalize (os_open s) as l. induction l as [|fd l IH]; cbn [open_retry]; intros H1; [destruct H1 as (t & E); discriminate|].
      unfold branch in H1. apply bind_inv in H1. destruct H1 as (u' & _ & H1). destruct (Z.eqb_spec fd (-1)); [apply IH, H1|].
      apply ret_inv in H1. injection H1; intros; subst; assumption.
    - apply ret_inv in H1. injection H1; intros; subst; assumption. }
  apply bind_inv in H. destruct H as ([[[[b c] n] a] p] & H2 & H). apply ret_inv in H. injection H; intros <- <- <- <-. cbn [os_pos os_read].
  destruct (Z.lt_ge_cases (to_int nbytes) 0) as [Hneg|Hpos].
  - cbn [loop] in H2. replace (0 <? to_int nbytes) with false in H2 by (symmetry; apply Z.ltb_ge; lia).
    apply bind_inv in H2. destruct H2 as ([x go] & H3 & H2). apply ret_inv in H3. injection H3; intros <- <-.
    apply bind_inv in H2. destruct H2 as (u & _ & H2). apply ret_inv in H2. injection H2; intros <- <- <- <- <-.
    replace m with 0 by lia. split; [reflexivity|]. split; [|split; [lia|split; [lia|split; [apply later_refl|exact Hlk]]]].
    unfold stored, zsplice, from_stream. cbn. reflexivity.
  - apply (loop_inv st (0 + to_int nbytes)) in H2; [|exact Hg|lia|lia|reflexivity].
    destruct H2 as (a' & E & Hl & Hb). injection E; intros -> -> _ _ ->.
    replace m with (to_int nbytes) by lia. split; [reflexivity|]. split; [reflexivity|]. split; [lia|]. split; [lia|]. split; [exact Hl|exact Hlk].
Qed.
Print Assumptions C20_exact.
(** For lengths that fit an int: the whole buffer. *)
Theorem C20_whole_buffer : forall st s lock buf nbytes buf' rc lock' s',
  good (os_read s) -> 0 <= nbytes < 2 ^ 31 -> zlen buf = nbytes ->
  returns (randombytes_nix st s lock buf nbytes) (buf', rc, lock', s') ->
  rc = 0 /\ buf' = from_stream st (os_pos s) nbytes /\ os_pos s' = os_pos s + nbytes.
Proof.
  intros st s lock buf nbytes buf' rc lock' s' Hg Hn L H. destruct (C20_exact _ _ _ _ _ _ _ _ _ Hg H) as (-> & -> & E & _).
  assert (Em : Z.max 0 (to_int nbytes) = nbytes).
  { unfold to_int. rewrite Z.mod_small by lia. destruct (Z.ltb_spec nbytes 2147483648); lia. }
  rewrite Em in *. split; [reflexivity|]. split; [|exact E]. apply zsplice_all. unfold from_stream; rewrite zlen_ztab; lia.
Qed.
Print Assumptions C20_whole_buffer.

(** ** C20: it returns, on every schedule that makes progress *)
(** Total number of bytes the schedule offers. *)
Fixpoint offered (a : list read_answer) : Z :=
  match a with [] => 0 | RErr :: a => offered a | RGive k :: a => k + offered a end.
Lemma offered_good a : good a -> 0 <= offered a.
Proof.
  induction a as [|[|k] a IH]; intros H; cbn [offered]; [lia| |].
  - apply IH. intros k Hk; apply H; right; exact Hk.
  - assert (0 <= k) by (apply H; left; reflexivity). assert (0 <= offered a); [apply IH; intros j Hj; apply H; right; exact Hj|lia].
Qed.
Lemma read_retry_wp st a : forall pos buf count n, good a -> 0 < n -> 0 < offered a -> 0 <= count -> count + n <= zlen buf ->
  wp (read_retry st a pos buf count n) (fun '(b, r, a', _) => 0 <= r <= n /\ zlen b = zlen buf /\ good a' /\ (length a' < length a)%nat /\
      (n <= offered a -> n - r <= offered a')).
Proof.
  induction a as [|[|k] a IH]; intros pos buf count n Hg Hn Ho Hc Hb; cbn [read_retry offered] in *.
  - lia.
  - apply wp_bind, wp_emit. eapply wp_mono; [apply IH; auto; intros k Hk; apply Hg; right; exact Hk|].
    intros [[[b r] a'] p] (? & ? & ? & ? & ?). cbn [length]. repeat split; auto; lia.
  - assert (0 <= k) by (apply Hg; left; reflexivity). apply wp_bind, wp_put; rewrite ?zlen_ztab; try lia.
    apply wp_bind, wp_emit, wp_ret. split; [lia|]. split; [rewrite zlen_zsplice; rewrite ?zlen_ztab; lia|].
    split; [intros j Hj; apply Hg; right; exact Hj|]. cbn [length]. split; [lia|].
    assert (0 <= offered a) by (apply offered_good; intros j Hj; apply Hg; right; exact Hj). lia.
Qed.
Theorem C20_returns : forall st s lock buf nbytes,
  good (os_read s) -> (lock = -1 -> exists fd, In fd (os_open s) /\ fd <> -1) ->
  0 <= nbytes < 2 ^ 31 -> zlen buf = nbytes -> nbytes <= offered (os_read s) ->
  exists buf' rc lock' s', returns (randombytes_nix st s lock buf nbytes) (buf', rc, lock', s').
Proof.
  intros st s lock buf nbytes Hg Hop Hn L Ho.
  assert (Ei : to_int nbytes = nbytes) by (unfold to_int; rewrite Z.mod_small by lia; destruct (Z.ltb_spec nbytes 2147483648); lia).
  assert (W : wp (randombytes_nix st s lock buf nbytes) (fun _ => True)).
  { unfold randombytes_nix. cbv zeta. rewrite Ei. apply wp_bind.
    apply wp_mono with (P := fun _ => True).
    { apply wp_branch; [|intros _; apply wp_ret; exact I]. intros E%Z.eqb_eq.
      destruct (Hop E) as (fd & Hin & Hfd). clear - Hin Hfd. revert Hin. generalize (os_open s) as l. induction l as [|x l IH]; intros Hin; [destruct Hin|].
      cbn [open_retry]. apply wp_branch; [|intros _; apply wp_ret; exact I]. intros E%Z.eqb_eq. apply IH. destruct Hin; [congruence|assumption]. }
    intros [lk o] _. apply wp_bind.
    apply wp_loop with (I := fun '(b, c, n, a, _) => zlen b = nbytes /\ 0 <= c /\ 0 <= n /\ c + n = nbytes /\ good a /\ n <= offered a)
                       (mu := fun '(_, _, _, a, _) => length a).
    - split; [lia|]. split; [lia|]. split; [lia|]. split; [lia|]. split; auto.
    - cbn. lia.
    - intros [[[[b c] n] a] p] (H1 & H2 & H3 & H4 & H5 & H6). destruct (Z.ltb_spec 0 n).
      + apply wp_bind. eapply wp_mono; [apply read_retry_wp; auto; lia|].
        intros [[[b' r] a'] p'] (G1 & G2 & G3 & G4 & G5). apply wp_bind, wp_i32; [lia|]. apply wp_bind, wp_i32; [lia|]. apply wp_ret.
        cbv beta iota. split; [|cbn; lia]. split; [lia|]. split; [lia|]. split; [lia|]. split; [lia|]. split; [auto|apply G5; lia].
      + apply wp_ret. cbv beta iota. apply wp_ret. exact I. }
  destruct W as ([[[b rc] lk] s'] & t & E & _). exists b, rc, lk, s', t. exact E.
Qed.
Print Assumptions C20_returns.
(** A schedule with short reads and errors that meets the hypotheses, and the run. *)
Definition sched : os := {| os_open := [-1; -1; 7]; os_read := [RErr; RGive 3; RGive 0; RErr; RErr; RGive 4; RGive 100]; os_pos := 50 |}.
Example C20_hyps : good (os_read sched) /\ (exists fd, In fd (os_open sched) /\ fd <> -1) /\ 10 <= offered (os_read sched).
Proof.
  split; [intros k Hk; cbn in Hk; intuition; try discriminate; match goal with H : RGive _ = RGive _ |- _ => injection H; lia end|].
  split; [exists 7; cbn; split; [auto|lia]|cbn; lia].
Qed.
Example C20_run : exists t, randombytes_nix (fun i => i) sched (-1) (uninit 10) 10 =
  Ok ([50; 51; 52; 53; 54; 55; 56; 57; 58; 59], 0, 7, {| os_open := []; os_read := []; os_pos := 60 |}) t.
Proof. eexists. vm_compute. reflexivity. Qed.

(** Two calls in a row: consecutive, non-overlapping parts of the stream, and the second
    does not open the device again. *)
Theorem C20_consecutive : forall st s lock b1 n1 b1' rc1 lock1 s1 b2 n2 b2' rc2 lock2 s2,
  good (os_read s) -> 0 <= n1 < 2 ^ 31 -> zlen b1 = n1 -> 0 <= n2 < 2 ^ 31 -> zlen b2 = n2 ->
  returns (randombytes_nix st s lock b1 n1) (b1', rc1, lock1, s1) ->
  returns (randombytes_nix st s1 lock1 b2 n2) (b2', rc2, lock2, s2) ->
  b1' ++ b2' = from_stream st (os_pos s) (n1 + n2) /\ lock2 = lock1 /\ os_open s2 = os_open s1.
Proof.
  intros st s lock b1 n1 b1' rc1 lock1 s1 b2 n2 b2' rc2 lock2 s2 Hg H1 L1 H2 L2 R1 R2.
  pose proof (C20_exact _ _ _ _ _ _ _ _ _ Hg R1) as (_ & _ & _ & _ & Hl & Hlk).
  destruct (C20_whole_buffer _ _ _ _ _ _ _ _ _ Hg H1 L1 R1) as (_ & -> & E1).
  destruct (C20_whole_buffer _ _ _ _ _ _ _ _ _ (good_later _ _ Hl Hg) H2 L2 R2) as (_ & -> & E2).
  split.
  - rewrite E1. apply list_ext; [rewrite zlen_app; unfold from_stream; rewrite !zlen_ztab; lia|].
    rewrite zlen_app; unfold from_stream; rewrite !zlen_ztab by lia. intros i Hi. rewrite (znth_ztab (n1 + n2)) by lia.
    destruct (Z.lt_ge_cases i n1).
    + rewrite znth_app1 by (rewrite zlen_ztab; lia). rewrite znth_ztab by lia. reflexivity.
    + rewrite znth_app2 by (rewrite zlen_ztab; lia). rewrite zlen_ztab by lia. rewrite znth_ztab by lia. f_equal; lia.
  - unfold randombytes_nix in R2. cbv zeta in R2. apply bind_inv in R2. destruct R2 as ([lk o] & K1 & R2).
    apply bind_inv in R2. destruct R2 as ([[[[b c] n] a] p] & _ & R2). apply ret_inv in R2. injection R2; intros <- <- _ _. cbn [os_open].
    unfold branch in K1. apply bind_inv in K1. destruct K1 as (u & _ & K1). destruct (Z.eqb_spec lock1 (-1)); [contradiction|].
    apply ret_inv in K1. injection K1; auto.
Qed.
Print Assumptions C20_consecutive.

(** ** C20: where it breaks *)
(** A length whose low 32 bits are 0 or at least 2^31: reports success, writes nothing. *)
Theorem C20_large_writes_nothing : forall st s lock buf nbytes,
  lock <> -1 -> nbytes mod 2 ^ 32 = 0 \/ 2 ^ 31 <= nbytes mod 2 ^ 32 ->
  returns (randombytes_nix st s lock buf nbytes) (buf, 0, lock, {| os_open := os_open s; os_read := os_read s; os_pos := os_pos s |}).
Proof.
  intros st s lock buf nbytes Hl Hn. unfold randombytes_nix. cbv zeta.
  assert (Hneg : to_int nbytes <= 0).
  { unfold to_int. change 4294967296 with (2 ^ 32). pose proof (Z.mod_pos_bound nbytes (2 ^ 32) ltac:(lia)).
    destruct (Z.ltb_spec (nbytes mod 2 ^ 32) 2147483648); lia. }
  unfold branch. destruct (Z.eqb_spec lock (-1)); [contradiction|]. cbn [bind emit ret loop].
  replace (0 <? to_int nbytes) with false by (symmetry; apply Z.ltb_ge; lia). cbn. eexists; reflexivity.
Qed.
Print Assumptions C20_large_writes_nothing.
Theorem C20_large_refuted :
  ~ (forall st s lock buf nbytes buf' lock' s', good (os_read s) -> zlen buf = nbytes -> 0 <= nbytes < 2 ^ 64 ->
       returns (randombytes_nix st s lock buf nbytes) (buf', 0, lock', s') -> buf' = from_stream st (os_pos s) nbytes).
Proof.
  intros H. assert (Hn : exists n, n = 2 ^ 31) by eauto. destruct Hn as (n & En).
  assert (R : returns (randombytes_nix (fun _ => 0) {| os_open := []; os_read := []; os_pos := 0 |} 5 (uninit n) n)
                (uninit n, 0, 5, {| os_open := []; os_read := []; os_pos := 0 |})).
  { apply (C20_large_writes_nothing (fun _ => 0) {| os_open := []; os_read := []; os_pos := 0 |} 5 (uninit n) n); [lia|right].
    rewrite Z.mod_small; lia. }
  apply H in R; [|intros k []|apply zlen_uninit; lia|lia].
  assert (E : znth (uninit n) 0 = 0).
  { rewrite R. unfold from_stream. apply znth_ztab. lia. }
  unfold uninit in E. rewrite znth_zrep in E by lia. discriminate.
Qed.
Print Assumptions C20_large_refuted.
(** End of file on the device: it waits forever (no schedule of empty reads and errors,
    however long, lets it return). *)
Theorem C20_eof_spins : forall st s lock buf nbytes v,
  (forall a, In a (os_read s) -> a = RErr \/ a = RGive 0) -> 0 < nbytes < 2 ^ 31 ->
  ~ returns (randombytes_nix st s lock buf nbytes) v.
Proof.
  intros st s lock buf nbytes [[[b rc] lk] s'] Ha Hn H.
  assert (Hg : good (os_read s)) by (intros k Hk; destruct (Ha _ Hk) as [E|E]; [discriminate|injection E; lia]).
  assert (Em : to_int nbytes = nbytes).
  { unfold to_int. rewrite Z.mod_small by lia. destruct (Z.ltb_spec nbytes 2147483648); lia. }
  unfold randombytes_nix in H. cbv zeta in H. rewrite Em in H. apply bind_inv in H. destruct H as ([lk' o] & _ & H).
  apply bind_inv in H. destruct H as (v & H & _). revert H.
  assert (K : forall fuel buf count a pos, (forall x, In x a -> x = RErr \/ x = RGive 0) ->
    ~ returns (loop fuel (fun '(buf, count, n, a, pos) =>
      if 0 <? n then
        '(buf, r, a, pos) <- read_retry st a pos buf count n ;;
        count <- i32 (count + r) ;;
        n <- i32 (n - r) ;;
        ret ((buf, count, n, a, pos), true)
      else ret ((buf, count, n, a, pos), false)) (buf, count, nbytes, a, pos)) v); [|apply K, Ha].
  induction fuel as [|fuel IH]; intros bf count a pos Hz H; [destruct H as (t & E); discriminate|]. cbn [loop] in H.
  replace (0 <? nbytes) with true in H by (symmetry; apply Z.ltb_lt; lia).
  apply bind_inv in H. destruct H as ([s0 go] & H1 & H). apply bind_inv in H1. destruct H1 as (v1 & H1 & H2).
  destruct (read_retry_inv st a pos bf count nbytes v1 ltac:(lia) H1) as (r & a' & -> & _ & _ & _ & Hl & _ & k & Hk & Er).
  destruct (Hz _ Hk) as [E|E]; [discriminate|]. injection E; intros ->. replace r with 0 in * by lia.
  apply bind_inv in H2. destruct H2 as (c' & _ & H2). apply bind_inv in H2. destruct H2 as (n' & H3 & H2). apply i32_inv in H3. destruct H3 as (-> & _).
  apply ret_inv in H2. injection H2; intros <- <-. apply bind_inv in H. destruct H as (u & _ & H). cbv iota in H.
  replace (nbytes - 0) with nbytes in H by lia. apply IH in H; [exact H|]. intros x Hx. apply Hz. destruct Hl as (us & ->). apply in_or_app; auto.
Qed.
Print Assumptions C20_eof_spins.

(** ** Windows *)
Theorem C20_windows : forall st buf nbytes, 0 <= nbytes < 2 ^ 32 -> zlen buf = nbytes ->
  returns (randombytes_win st true buf nbytes) (from_stream st 0 nbytes, 0) /\
  returns (randombytes_win st false buf nbytes) (buf, 1).
Proof.
  intros st buf nbytes Hn L. split; [|exists []; reflexivity]. unfold randombytes_win. cbv zeta. rewrite Z.mod_small by lia.
  apply wp_returns. apply wp_bind, wp_put; rewrite ?zlen_ztab; try lia. apply wp_ret. f_equal.
  rewrite zsplice_all by (rewrite zlen_ztab; lia). reflexivity.
Qed.
Print Assumptions C20_windows.

(** ** Together with the KEM *)
(** Key generation on Unix, whatever the schedule: the keys are KeyGen of the next
    2*CRYPTO_BYTES+16 bytes of the system's stream. *)
Definition nix_generator (st : Z -> Z) (s : os) (lock : Z) : generator := fun buf n =>
  '(buf, rc, _, _) <- randombytes_nix st s lock buf n ;; ret (buf, rc).
Theorem C20_keypair_on_nix : forall C st s lock mem pk sk,
  let P := cP C in
  let n := 2 * pCB P + 16 in
  valid P -> n < 2 ^ 31 -> (forall i, 0 <= st i < 256) ->
  good (os_read s) -> (lock = -1 -> exists fd, In fd (os_open s) /\ fd <> -1) -> n <= offered (os_read s) ->
  region mem pk (pkBytes P) -> region mem sk (skBytes P) -> disjoint pk (pkBytes P) sk (skBytes P) ->
  let bytes from len := from_stream st (os_pos s + from) len in
  let '(PK, SK) := KeyGen P (cGen C) (bytes 0 (pCB P)) (bytes (pCB P) (pCB P)) (bytes (2 * pCB P) 16) in
  exists l, returns (crypto_kem_keypair C (nix_generator st s lock) mem pk sk) (stored (stored mem pk PK) sk SK, l, 0).
Proof.
  intros C st s lock mem pk sk P n V Hn Hst Hg Hop Ho Rpk Rsk Hd bytes. pose proof (v_CB _ V) as HCB. fold P in HCB.
  assert (Hb : forall o k, 0 <= k -> bytestr k (bytes o k)).
  { intros o k Hk. split; [apply zlen_ztab; lia|apply inrange_ztab; intros; apply Hst]. }
  apply (C05_keypair C (nix_generator st s lock) 0 mem pk sk); auto; try (apply Hb; lia).
  unfold delivers, nix_generator. fold P.
  destruct (C20_returns st s lock (uninit n) n) as (b & rc & lk & s' & R); auto; [unfold n; lia|apply zlen_uninit; unfold n; lia|].
  destruct (C20_whole_buffer st s lock (uninit n) n b rc lk s' Hg ltac:(unfold n in *; lia) ltac:(apply zlen_uninit; unfold n; lia) R) as (-> & -> & _).
  apply wp_returns. apply wp_bind. eapply wp_mono; [apply returns_wp, R|]. intros x ->. apply wp_ret. f_equal.
  unfold bytes, n. apply list_ext; [rewrite !zlen_app; unfold from_stream; rewrite !zlen_ztab; lia|].
  unfold from_stream; rewrite !zlen_ztab by lia. intros i Hi. rewrite znth_ztab by lia.
  destruct (Z.lt_ge_cases i (pCB P)); [rewrite znth_app1, znth_ztab by (rewrite ?zlen_ztab; lia); f_equal; lia|].
  rewrite znth_app2 by (rewrite zlen_ztab; lia). rewrite zlen_ztab by lia.
  destruct (Z.lt_ge_cases i (2 * pCB P)); [rewrite znth_app1, znth_ztab by (rewrite ?zlen_ztab; lia); f_equal; lia|].
  rewrite znth_app2 by (rewrite zlen_ztab; lia). rewrite zlen_ztab, znth_ztab by lia. f_equal; lia.
Qed.
Print Assumptions C20_keypair_on_nix.
(** Key generation on Windows when the generator fails: undefined. *)
Theorem C21_keypair_on_windows_failure : forall C st mem pk sk,
  valid (cP C) -> region mem pk (pkBytes (cP C)) ->
  crypto_kem_keypair C (randombytes_win st false) mem pk sk = Err UB_uninit.
Proof. intros C st mem pk sk V H. exact (C21_keypair_unwritten C 1 mem pk sk V H). Qed.
Print Assumptions C21_keypair_on_windows_failure.
