(** The known-answer-test program, Kat.v: what FindMarker, ReadHex and main compute. *)
From Coq Require Import String.
From Verif Require Import CSem Str Params Aes Rng Kem Kat KatSpec DrbgSpec RngProofs UtilProofs KeccakProofs
  FrodoSpec FrodoFacts KemWp PropMatrix PropKem PropRng.
Local Open Scope Z_scope.

(** ** FindMarker *)
Definition bytes := list Z.
(** The text after the first occurrence of m. *)
Fixpoint find (m s : bytes) : option bytes :=
  if list_eq_dec Z.eq_dec (firstn (List.length m) s) m then Some (skipn (List.length m) s)
  else match s with [] => None | _ :: s' => find m s' end.
Lemma find_short m s : (List.length s < List.length m)%nat -> find m s = None.
Proof.
  induction s as [|c s IH]; intros H; cbn [find].
  - destruct (list_eq_dec Z.eq_dec (firstn (List.length m) []) m) as [E|_]; [|reflexivity].
    rewrite firstn_nil in E. subst m. cbn in H. lia.
  - destruct (list_eq_dec Z.eq_dec (firstn (List.length m) (c :: s)) m) as [E|_].
    + exfalso. assert (L : List.length (firstn (List.length m) (c :: s)) = List.length m) by (rewrite E; reflexivity).
      rewrite firstn_length in L. lia.
    + apply IH. cbn in H. lia.
Qed.
Lemma find_len m s r : find m s = Some r -> (List.length m + List.length r <= List.length s)%nat.
Proof.
  revert r. induction s as [|c s IH]; intros r; cbn [find].
  - destruct (list_eq_dec Z.eq_dec (firstn (List.length m) []) m) as [E|_]; [|discriminate].
    rewrite firstn_nil in E. subst m. intros H; injection H as <-. cbn. lia.
  - destruct (list_eq_dec Z.eq_dec (firstn (List.length m) (c :: s)) m) as [E|_].
    + intros H; injection H as <-. assert (L : List.length (firstn (List.length m) (c :: s)) = List.length m) by (rewrite E; reflexivity).
      rewrite firstn_length in L. rewrite skipn_length. lia.
    + intros H. specialize (IH r H). cbn [List.length]. lia.
Qed.
Lemma find_bytes m s r : bytes_ok s -> find m s = Some r -> bytes_ok r.
Proof.
  revert r. induction s as [|c s IH]; intros r B; cbn [find].
  - destruct (list_eq_dec Z.eq_dec (firstn (List.length m) []) m) as [E|_]; [|discriminate].
    intros H; injection H as <-. rewrite skipn_nil. constructor.
  - destruct (list_eq_dec Z.eq_dec (firstn (List.length m) (c :: s)) m) as [E|_].
    + intros H; injection H as <-. apply inrange_skipn, B.
    + apply IH. inversion B; assumption.
Qed.
Lemma find_here m s : find m (m ++ s) = Some s.
Proof.
  assert (E : firstn (List.length m) (m ++ s) = m) by (rewrite firstn_app, Nat.sub_diag, firstn_all, firstn_O, app_nil_r; reflexivity).
  assert (E2 : skipn (List.length m) (m ++ s) = s) by (rewrite skipn_app, Nat.sub_diag, skipn_all; reflexivity).
  destruct (m ++ s) as [|c x] eqn:Em; cbn [find]; (destruct (list_eq_dec Z.eq_dec _ m); [rewrite E2; reflexivity|contradiction]).
Qed.
Lemma find_some m s r : find m s = Some r -> exists a, s = a ++ m ++ r.
Proof.
  revert r. induction s as [|c s IH]; intros r; cbn [find].
  - destruct (list_eq_dec Z.eq_dec (firstn (List.length m) []) m) as [E|_]; [|discriminate].
    rewrite firstn_nil in E. subst m. intros H; injection H as <-. exists []. reflexivity.
  - destruct (list_eq_dec Z.eq_dec (firstn (List.length m) (c :: s)) m) as [E|_].
    + intros H; injection H as <-. exists []. rewrite <- E at 1. cbn [app]. rewrite firstn_skipn. reflexivity.
    + intros H. destruct (IH r H) as (a & ->). exists (c :: a). reflexivity.
Qed.
Lemma find_none m s : find m s = None <-> ~ occurs m s.
Proof.
  split.
  - intros H (a & b & ->). revert H. induction a as [|c a IH].
    + cbn [app]. rewrite find_here. discriminate.
    + cbn [app find]. destruct (list_eq_dec Z.eq_dec _ m); [discriminate|exact IH].
  - intros H. destruct (find m s) as [r|] eqn:E; [|reflexivity]. exfalso. apply H.
    destruct (find_some m s r E) as (a & ->). exists a, r. reflexivity.
Qed.
(** After a gap without the marker, for a marker whose first letter does not occur again in it. *)
Lemma find_gap x m gap s : ~ In x m -> ~ occurs (x :: m) gap -> find (x :: m) (gap ++ (x :: m) ++ s) = Some s.
Proof.
  intros Hx. induction gap as [|c gap IH]; intros H; [change (find (x :: m) ((x :: m) ++ s) = Some s); apply find_here|].
  cbn [app]. cbn [find]. destruct (list_eq_dec Z.eq_dec _ (x :: m)) as [E|_].
  - exfalso. cbn [List.length firstn] in E. injection E as -> E.
    destruct (Nat.le_gt_cases (List.length m) (List.length gap)) as [L|L].
    + apply H. exists [], (skipn (List.length m) gap). cbn [app]. f_equal. rewrite <- E at 1.
      rewrite firstn_app. replace (List.length m - List.length gap)%nat with 0%nat by lia. rewrite firstn_O, app_nil_r, firstn_skipn. reflexivity.
    + apply Hx. rewrite <- E. rewrite firstn_app. apply in_or_app. right.
      destruct (List.length m - List.length gap)%nat eqn:En; [lia|]. left. reflexivity.
  - apply IH. intros (a & b & Ea). apply H. exists (c :: a), b. cbn [app]. f_equal. exact Ea.
Qed.

Lemma strncmp_wp a b : forall n i, 0 <= i ->
  i + Z.of_nat n <= zlen a -> i + Z.of_nat n <= zlen b ->
  (forall j, i <= j < i + Z.of_nat n -> 0 <= znth a j /\ 0 < znth b j) ->
  wp (strncmp n i a b) (fun e => e = true <-> forall j, i <= j < i + Z.of_nat n -> znth a j = znth b j).
Proof.
  induction n as [|n IH]; intros i Hi La Lb H; cbn [strncmp].
  - apply wp_ret. split; [intros _ j Hj; lia|reflexivity].
  - destruct (H i ltac:(lia)) as (H1 & H2).
    apply wp_bind, wp_rd; [lia|lia|]. apply wp_bind, wp_rd; [lia|lia|].
    apply wp_branch; intros E.
    + apply Z.eqb_eq in E. apply wp_branch; intros E2; [apply Z.eqb_eq in E2; lia|].
      eapply wp_mono; [apply IH; try lia; intros j Hj; apply H; lia|].
      intros e He; cbv beta in He. rewrite He. split; intros Hj j Hj2; [|apply Hj; lia].
      destruct (Z.eq_dec j i) as [->|]; [exact E|apply Hj; lia].
    + apply Z.eqb_neq in E. apply wp_ret. split; [discriminate|]. intros Hj. exfalso. apply E, Hj. lia.
Qed.

Section Marker.
Variable m : bytes.
Hypothesis Lm : 1 <= zlen m <= 49.
Hypothesis Pm : Forall (fun c => 0 < c) m.
Lemma m_pos j : 0 <= j < zlen m -> 0 < znth (m ++ [0]) j.
Proof.
  intros Hj. rewrite znth_app1 by lia. unfold zlen in *. rewrite Forall_forall in Pm. apply Pm.
  rewrite <- (Z2Nat.id j) by lia. rewrite znth_nth_nat. apply nth_In. lia.
Qed.
Definition found (s : bytes) : Z * stream := match find m s with Some r => (1, r) | None => (0, []) end.
Lemma slide_wp : forall f line w, zlen line = 50 -> zlen w = zlen m -> bytes_ok w -> bytes_ok f ->
  (forall j, 0 <= j < zlen m -> znth line j = znth w j) ->
  wp (slide (zlen m) (m ++ [0]) f line) (fun r => r = found (w ++ f)).
Proof.
  induction f as [|c f IH]; intros line w Ll Lw Bw Bf Hw; cbn [slide].
  - apply wp_bind. eapply wp_mono; [apply strncmp_wp; try lia|].
    { rewrite zlen_app. change (zlen [0]) with 1. lia. }
    { intros j Hj. rewrite Z2Nat.id in Hj by lia. split; [rewrite Hw by lia; apply (inrange_znth 256); [exact Bw|lia]|apply m_pos; lia]. }
    intros e He. cbv beta in He.
    assert (He' : e = true <-> w = m).
    { rewrite He. split; intros Hx.
      - apply list_ext; [lia|]. intros j Hj. rewrite <- Hw by lia. rewrite Hx by (rewrite Z2Nat.id; lia). apply znth_app1. lia.
      - intros j Hj. rewrite Hw by lia. rewrite Hx. symmetry. apply znth_app1. lia. }
    clear He. destruct e.
    + apply wp_branch; [intros _|discriminate]. apply wp_ret. destruct He' as (E & _). rewrite (E eq_refl). unfold found. rewrite find_here. reflexivity.
    + apply wp_branch; [discriminate|intros _]. assert (Nw : w <> m) by (intros E; destruct He' as (_ & H); specialize (H E); discriminate).
      apply wp_bind. eapply wp_mono; [apply (wp_for (fun k line' => zlen line' = 50 /\ forall j, 0 <= j < zlen m -> znth line' j = znth w (if j <? k then j + 1 else j)))|].
      * lia.
      * split; [exact Ll|]. intros j Hj. destruct (Z.ltb_spec j 0); [lia|apply Hw; lia].
      * intros i line' Hi (L' & H'). apply wp_bind, wp_rd; [lia|rewrite H' by lia; destruct (Z.ltb_spec (i + 1) i); [lia|]; apply (inrange_znth 256); [exact Bw|lia]|].
        apply wp_wr; [lia|]. split; [rewrite zlen_zset; exact L'|]. intros j Hj.
        destruct (Z.eq_dec j i) as [->|Ne].
        { rewrite znth_zset_eq by lia. rewrite H' by lia. destruct (Z.ltb_spec (i + 1) i); [lia|]. destruct (Z.ltb_spec i (i + 1)); [reflexivity|lia]. }
        { rewrite znth_zset_ne by lia. rewrite H' by lia. destruct (Z.ltb_spec j i), (Z.ltb_spec j (i + 1)); try reflexivity; lia. }
      * intros line' H'. exact H'.
      * intros line' (L' & H'). cbv beta. apply wp_bind, wp_wr; [lia|]. apply wp_ret. unfold found. rewrite app_nil_r.
        destruct w as [|x w]; [change (zlen (@nil Z)) with 0 in Lw; lia|]. cbn [find].
        destruct (list_eq_dec Z.eq_dec _ m) as [E|_]; [|rewrite find_short; [reflexivity|]].
        { exfalso. apply Nw. rewrite <- E. rewrite firstn_all2; [reflexivity|]. unfold zlen in Lw. lia. }
        { unfold zlen in Lw. cbn [List.length] in Lw. lia. }
  - apply wp_bind. eapply wp_mono; [apply strncmp_wp; try lia|].
    { rewrite zlen_app. change (zlen [0]) with 1. lia. }
    { intros j Hj. rewrite Z2Nat.id in Hj by lia. split; [rewrite Hw by lia; apply (inrange_znth 256); [exact Bw|lia]|apply m_pos; lia]. }
    intros e He. cbv beta in He.
    assert (He' : e = true <-> w = m).
    { rewrite He. split; intros Hx.
      - apply list_ext; [lia|]. intros j Hj. rewrite <- Hw by lia. rewrite Hx by (rewrite Z2Nat.id; lia). apply znth_app1. lia.
      - intros j Hj. rewrite Hw by lia. rewrite Hx. symmetry. apply znth_app1. lia. }
    clear He. destruct e.
    + apply wp_branch; [intros _|discriminate]. apply wp_ret. destruct He' as (E & _). rewrite (E eq_refl). unfold found. rewrite find_here. reflexivity.
    + apply wp_branch; [discriminate|intros _]. assert (Nw : w <> m) by (intros E; destruct He' as (_ & H); specialize (H E); discriminate).
      apply wp_bind. eapply wp_mono; [apply (wp_for (fun k line' => zlen line' = 50 /\ forall j, 0 <= j < zlen m -> znth line' j = znth w (if j <? k then j + 1 else j)))|].
      * lia.
      * split; [exact Ll|]. intros j Hj. destruct (Z.ltb_spec j 0); [lia|apply Hw; lia].
      * intros i line' Hi (L' & H'). apply wp_bind, wp_rd; [lia|rewrite H' by lia; destruct (Z.ltb_spec (i + 1) i); [lia|]; apply (inrange_znth 256); [exact Bw|lia]|].
        apply wp_wr; [lia|]. split; [rewrite zlen_zset; exact L'|]. intros j Hj.
        destruct (Z.eq_dec j i) as [->|Ne].
        { rewrite znth_zset_eq by lia. rewrite H' by lia. destruct (Z.ltb_spec (i + 1) i); [lia|]. destruct (Z.ltb_spec i (i + 1)); [reflexivity|lia]. }
        { rewrite znth_zset_ne by lia. rewrite H' by lia. destruct (Z.ltb_spec j i), (Z.ltb_spec j (i + 1)); try reflexivity; lia. }
      * intros line' H'. exact H'.
      * intros line' (L' & H'). cbv beta. apply wp_bind, wp_wr; [lia|]. apply wp_bind, wp_wr; [rewrite zlen_zset; lia|].
        destruct w as [|x w]; [change (zlen (@nil Z)) with 0 in Lw; lia|]. rewrite zlen_cons in Lw.
        inversion Bf as [|? ? Bc Bf']; subst. inversion Bw as [|? ? Bx Bw']; subst.
        assert (EF : found ((x :: w) ++ c :: f) = found ((w ++ [c]) ++ f)).
        { unfold found. rewrite <- app_assoc. cbn [app find].
          destruct (list_eq_dec Z.eq_dec (firstn (List.length m) (x :: w ++ c :: f)) m) as [E|_]; [|reflexivity].
          exfalso. apply Nw. rewrite <- E. replace (List.length m) with (List.length (x :: w)) by (unfold zlen in Lw; cbn [List.length]; lia).
          change (x :: w ++ c :: f) with ((x :: w) ++ c :: f). rewrite firstn_app, Nat.sub_diag, firstn_all, firstn_O, app_nil_r. reflexivity. }
        rewrite EF. apply IH.
        { rewrite !zlen_zset. exact L'. }
        { rewrite zlen_app. change (zlen [c]) with 1. lia. }
        { apply inrange_app; [exact Bw'|constructor; [exact Bc|constructor]]. }
        { exact Bf'. }
        { intros j Hj. rewrite znth_zset_ne by (rewrite ?zlen_zset; lia). destruct (Z.eq_dec j (zlen m - 1)) as [->|].
          - rewrite znth_zset_eq by lia. rewrite znth_app2 by lia. replace (zlen m - 1 - zlen w) with 0 by lia. reflexivity.
          - rewrite znth_zset_ne by lia. rewrite H' by lia. destruct (Z.ltb_spec j (zlen m - 1)); [|lia].
            rewrite znth_consS by lia. rewrite znth_app1 by lia. f_equal. lia. }
Qed.
Lemma fill_wp : forall n i f line, 0 <= i -> i + Z.of_nat n <= zlen line ->
  wp (fill n i f line) (fun r => match r with
    | None => (List.length f < n)%nat
    | Some (f', line') => (n <= List.length f)%nat /\ f' = skipn n f /\ zlen line' = zlen line /\
        (forall j, i <= j < i + Z.of_nat n -> znth line' j = znth f (j - i)) /\
        (forall j, j < i -> znth line' j = znth line j)
    end).
Proof.
  induction n as [|n IH]; intros i f line Hi Hl; cbn [fill].
  - apply wp_ret. repeat split; try lia; intros j Hj; lia.
  - destruct f as [|c f].
    + apply wp_bind, wp_wr; [lia|]. apply wp_ret. cbn. lia.
    + apply wp_bind, wp_wr; [lia|]. eapply wp_mono; [apply IH; rewrite ?zlen_zset; lia|].
      intros [[f' line']|]; cbn [List.length]; [|lia].
      rewrite zlen_zset. intros (H1 & H2 & H3 & H4 & H5). split; [lia|]. split; [exact H2|]. split; [exact H3|]. split.
      * intros j Hj. destruct (Z.eq_dec j i) as [->|].
        { rewrite H5 by lia. rewrite znth_zset_eq by lia. rewrite Z.sub_diag. reflexivity. }
        { rewrite H4 by lia. rewrite znth_consS by lia. f_equal. lia. }
      * intros j Hj. rewrite H5 by lia. apply znth_zset_ne; lia.
Qed.
Lemma FindMarker_wp f : bytes_ok f -> wp (FindMarker f m) (fun r => r = found f).
Proof.
  intros Bf. unfold FindMarker, MAX_MARKER_LEN. destruct (Z.ltb_spec (50 - 1) (zlen m)); [lia|].
  assert (L50 : zlen (uninit 50) = 50) by reflexivity.
  apply wp_bind. eapply wp_mono; [apply fill_wp; [lia|rewrite L50; lia]|].
  intros [[f' line']|]; cbv beta iota.
  - intros (H1 & -> & H3 & H4 & _). apply wp_bind, wp_wr; [lia|].
    set (n := Z.to_nat (zlen m)) in *. assert (Ln : zlen (firstn n f) = zlen m).
    { unfold zlen at 1. rewrite firstn_length_le by exact H1. unfold n. rewrite Z2Nat.id; lia. }
    eapply wp_mono; [apply (slide_wp (skipn n f) (zset line' (zlen m) 0) (firstn n f))|].
    + rewrite zlen_zset. lia.
    + exact Ln.
    + apply inrange_firstn, Bf.
    + apply inrange_skipn, Bf.
    + intros j Hj. rewrite znth_zset_ne by lia. rewrite H4 by (unfold n; rewrite Z2Nat.id; lia). rewrite Z.sub_0_r.
      rewrite <- (firstn_skipn n f) at 1. apply znth_app1. lia.
    + intros r ->. rewrite firstn_skipn. reflexivity.
  - intros H1. apply wp_ret. unfold found. rewrite find_short; [reflexivity|]. unfold zlen in H1. lia.
Qed.
End Marker.

(** ** ReadHex *)
Definition be_bytes (L v : Z) : bytes := ztab L (fun i => (v / 2 ^ (8 * (L - 1 - i))) mod 256).
Lemma zlen_be_bytes L v : 0 <= L -> zlen (be_bytes L v) = L.
Proof. intros; apply zlen_ztab; lia. Qed.
Lemma be_bytes_ok L v : bytes_ok (be_bytes L v).
Proof. apply inrange_ztab. intros i _. apply Z.mod_pos_bound. lia. Qed.
Lemma be_bytes_int x : bytes_ok x -> be_bytes (zlen x) (int_of_be x) = x.
Proof.
  intros B. pose proof (zlen_nonneg x). apply list_ext; [apply zlen_be_bytes; lia|].
  intros i Hi. rewrite zlen_be_bytes in Hi by lia. unfold be_bytes. rewrite znth_ztab by lia. apply be_byte; assumption.
Qed.
Lemma be_bytes_0 L : 0 <= L -> be_bytes L 0 = zrep L 0.
Proof.
  intros HL. apply list_ext; [rewrite zlen_be_bytes, zlen_zrep; lia|]. intros i Hi. rewrite zlen_be_bytes in Hi by lia.
  unfold be_bytes. rewrite znth_ztab, znth_zrep by lia. reflexivity.
Qed.
Lemma lor_nibble x y : 0 <= x < 256 -> 0 <= y < 16 -> Z.lor (Z.shiftl x 4) y = 16 * x + y.
Proof.
  intros Hx Hy. rewrite Z.shiftl_mul_pow2 by lia. change (2 ^ 4) with 16.
  assert (E : Z.land (x * 16) y = 0).
  { apply Z.bits_inj'. intros k Hk. rewrite Z.land_spec, Z.bits_0. change 16 with (2 ^ 4). rewrite <- Z.shiftl_mul_pow2 by lia.
    destruct (Z.lt_ge_cases k 4) as [H|H].
    - rewrite Z.shiftl_spec_low by lia. reflexivity.
    - destruct (Z.eq_dec y 0) as [->|]; [rewrite Z.bits_0; apply andb_false_r|].
      rewrite (Z.bits_above_log2 y k); [apply andb_false_r|lia|]. apply Z.lt_le_trans with 4; [|lia]. apply Z.log2_lt_pow2; lia. }
  rewrite <- Z.lxor_lor by exact E. rewrite <- Z.add_nocarry_lxor by exact E. lia.
Qed.
Lemma shift_in_wp L v h : 1 <= L -> 0 <= v -> 0 <= h < 16 ->
  wp (shift_in (be_bytes L v) L h) (fun A => A = be_bytes L (16 * v + h)).
Proof.
  intros HL Hv Hh. unfold shift_in.
  apply wp_bind. eapply wp_mono; [apply (wp_for (fun k A => zlen A = L /\ forall j, 0 <= j < L ->
     znth A j = if j <? k then znth (be_bytes L (16 * v + h)) j else znth (be_bytes L v) j))|].
  - lia.
  - split; [apply zlen_be_bytes; lia|]. intros j Hj. destruct (Z.ltb_spec j 0); [lia|reflexivity].
  - intros i A Hi (LA & HA).
    assert (E1 : znth A i = znth (be_bytes L v) i) by (rewrite HA by lia; destruct (Z.ltb_spec i i); [lia|reflexivity]).
    assert (E2 : znth A (i + 1) = znth (be_bytes L v) (i + 1)) by (rewrite HA by lia; destruct (Z.ltb_spec (i + 1) i); [lia|reflexivity]).
    pose proof (inrange_znth 256 _ i (be_bytes_ok L v) ltac:(rewrite zlen_be_bytes; lia)) as R1.
    pose proof (inrange_znth 256 _ (i + 1) (be_bytes_ok L v) ltac:(rewrite zlen_be_bytes; lia)) as R2.
    apply wp_bind, wp_rd; [lia|rewrite E1; lia|]. apply wp_bind, wp_rd; [lia|rewrite E2; lia|]. apply wp_wr; [lia|].
    split; [rewrite zlen_zset; exact LA|]. intros j Hj. destruct (Z.eq_dec j i) as [->|].
    + rewrite znth_zset_eq by lia. destruct (Z.ltb_spec i (i + 1)); [|lia]. rewrite E1, E2.
      rewrite Z.shiftr_div_pow2 by lia. change (2 ^ 4) with 16.
      rewrite lor_nibble by (try assumption; dlia).
      unfold u8, be_bytes. rewrite !znth_ztab by lia.
      set (k := L - 1 - (i + 1)). replace (L - 1 - i) with (k + 1) by (unfold k; lia).
      assert (Hk : 0 <= k) by (unfold k; lia).
      replace (8 * (k + 1)) with (8 * k + 8) by lia. rewrite Z.pow_add_r by lia. change (2 ^ 8) with 256.
      assert (Hp : 0 < 2 ^ (8 * k)) by (apply Z.pow_pos_nonneg; lia).
      assert (E3 : (16 * v + h) / (2 ^ (8 * k) * 256) = (v / 2 ^ (8 * k)) / 16).
      { replace (2 ^ (8 * k) * 256) with (16 * (2 ^ (8 * k) * 16)) by lia. rewrite <- Z.div_div by lia.
        replace ((16 * v + h) / 16) with v by dlia. rewrite Z.div_div by lia. reflexivity. }
      rewrite E3. rewrite <- (Z.div_div v (2 ^ (8 * k)) 256) by lia. generalize (v / 2 ^ (8 * k)). intros u.
      clear. dlia.
    + rewrite znth_zset_ne by lia. rewrite HA by lia. destruct (Z.ltb_spec j i), (Z.ltb_spec j (i + 1)); try reflexivity; lia.
  - intros A H. exact H.
  - intros A (LA & HA). cbv beta.
    assert (E1 : znth A (L - 1) = znth (be_bytes L v) (L - 1)) by (rewrite HA by lia; destruct (Z.ltb_spec (L - 1) (L - 1)); [lia|reflexivity]).
    pose proof (inrange_znth 256 _ (L - 1) (be_bytes_ok L v) ltac:(rewrite zlen_be_bytes; lia)) as R1.
    apply wp_bind, wp_rd; [lia|rewrite E1; lia|]. apply wp_wr; [lia|].
    apply list_ext; [rewrite zlen_zset, zlen_be_bytes; lia|]. rewrite zlen_zset. intros j Hj. destruct (Z.eq_dec j (L - 1)) as [->|].
    + rewrite znth_zset_eq by lia. rewrite E1, lor_nibble by assumption. unfold u8, be_bytes. rewrite !znth_ztab by lia.
      replace (8 * (L - 1 - (L - 1))) with 0 by lia. change (2 ^ 0) with 1. rewrite !Z.div_1_r. clear. dlia.
    + rewrite znth_zset_ne by lia. rewrite HA by lia. destruct (Z.ltb_spec j (L - 1)); [reflexivity|lia].
Qed.

(** A run of hexadecimal digits: their values, and the text after the byte that ends it. *)
Fixpoint hexrun (f : bytes) : bytes * stream :=
  match f with
  | [] => ([], [])
  | c :: f => if isxdigit c then let '(ds, r) := hexrun f in (ich_of c :: ds, r) else ([], f)
  end.
(** The first run on the current line. *)
Fixpoint hextext (f : bytes) : bytes * stream :=
  match f with
  | [] => ([], [])
  | c :: f' => if isxdigit c then hexrun f else if c =? 10 then ([], f') else hextext f'
  end.
Definition hexval (v : Z) (ds : bytes) : Z := fold_left (fun v d => 16 * v + d) ds v.
Lemma ich_range c : 0 <= ich_of c < 16.
Proof.
  unfold ich_of, u8.
  destruct (Z.leb_spec 48 c), (Z.leb_spec c 57), (Z.leb_spec 65 c), (Z.leb_spec c 70), (Z.leb_spec 97 c), (Z.leb_spec c 102);
    cbn [andb]; try (rewrite Z.mod_small by lia); lia.
Qed.
Lemma hex_loop_run L : 1 <= L -> forall f v, 0 <= v ->
  wp (hex_loop L f true (be_bytes L v)) (fun r => r = (be_bytes L (hexval v (fst (hexrun f))), snd (hexrun f))).
Proof.
  intros HL. induction f as [|c f IH]; intros v Hv; cbn [hex_loop hexrun]; [apply wp_ret; reflexivity|].
  destruct (isxdigit c) eqn:E; cbn [negb].
  - apply wp_branch; [discriminate|intros _]. apply wp_bind. eapply wp_mono; [apply shift_in_wp; try assumption; apply ich_range|].
    intros A ->. pose proof (ich_range c). eapply wp_mono; [apply IH; lia|]. intros r ->. destruct (hexrun f) as [ds r]. reflexivity.
  - apply wp_branch; [intros _|discriminate]. apply wp_branch; [discriminate|intros _]. apply wp_ret. reflexivity.
Qed.
Lemma hex_loop_wp L : 1 <= L -> forall f,
  wp (hex_loop L f false (zrep L 0)) (fun r => r = (be_bytes L (hexval 0 (fst (hextext f))), snd (hextext f))).
Proof.
  intros HL. rewrite <- be_bytes_0 by lia. induction f as [|c f IH]; cbn [hex_loop hextext]; [apply wp_ret; reflexivity|].
  destruct (isxdigit c) eqn:E; cbn [negb].
  - apply wp_branch; [discriminate|intros _]. apply wp_bind. eapply wp_mono; [apply shift_in_wp; try lia; apply ich_range|].
    intros A ->. pose proof (ich_range c). eapply wp_mono; [apply hex_loop_run; lia|]. intros r ->. cbn [hexrun]. rewrite E. destruct (hexrun f) as [ds r]. reflexivity.
  - apply wp_branch; [intros _|discriminate]. apply wp_branch; [intros _|discriminate].
    apply wp_branch; intros E2; rewrite E2; [apply wp_ret; reflexivity|exact IH].
Qed.
Definition read_hex (f : bytes) (L : Z) (m : bytes) : Z * bytes * stream :=
  match find m f with
  | Some r => (1, be_bytes L (hexval 0 (fst (hextext r))), snd (hextext r))
  | None => (0, zrep L 0, [])
  end.
Lemma ReadHex_wp f A L m : 1 <= L -> zlen A = L -> 1 <= zlen m <= 49 -> Forall (fun c => 0 < c) m -> bytes_ok f ->
  wp (ReadHex f A L m) (fun r => r = read_hex f L m).
Proof.
  intros HL LA Lm Pm Bf. unfold ReadHex, read_hex. apply wp_branch; intros E; [apply Z.eqb_eq in E; lia|].
  apply wp_bind, wp_memset; try lia. rewrite zsplice_all by (rewrite zlen_zrep; lia).
  apply wp_bind. eapply wp_mono; [apply FindMarker_wp; assumption|]. intros r ->. unfold found.
  destruct (find m f) as [r|]; cbv iota; change (1 =? 0) with false; change (0 =? 0) with true; cbn [negb].
  - apply wp_branch; [intros _|discriminate]. apply wp_bind. eapply wp_mono; [apply hex_loop_wp, HL|]. intros x ->. apply wp_ret. reflexivity.
  - apply wp_branch; [discriminate|intros _]. apply wp_ret. reflexivity.
Qed.
Lemma hexrun_len f : (List.length (snd (hexrun f)) <= List.length f)%nat.
Proof. induction f as [|c f IH]; cbn [hexrun]; [cbn; lia|]. destruct (isxdigit c); [destruct (hexrun f)|]; cbn [snd List.length] in *; lia. Qed.
Lemma hextext_len f : (List.length (snd (hextext f)) <= List.length f)%nat.
Proof.
  induction f as [|c f IH]; cbn [hextext]; [cbn; lia|]. pose proof (hexrun_len (c :: f)) as H.
  destruct (isxdigit c); [exact H|]. destruct (c =? 10); cbn [snd List.length] in *; lia.
Qed.
Lemma hexrun_bytes f : bytes_ok f -> bytes_ok (snd (hexrun f)).
Proof. induction f as [|c f IH]; cbn [hexrun]; intros B; [constructor|]. inversion B; subst. destruct (isxdigit c); [destruct (hexrun f)|]; cbn [snd] in *; auto. Qed.
Lemma hextext_bytes f : bytes_ok f -> bytes_ok (snd (hextext f)).
Proof.
  induction f as [|c f IH]; intros B; cbn [hextext]; [constructor|]. pose proof (hexrun_bytes (c :: f) B) as H.
  destruct (isxdigit c); [exact H|]. inversion B; subst. destruct (c =? 10); cbn [snd] in *; auto.
Qed.

(** A well-formed line is read as the value it spells. *)
Lemma hexchar_ok c n : 0 <= n < 16 -> hexchar c n -> isxdigit c = true /\ ich_of c = n /\ 0 <= c < 256.
Proof.
  intros Hn H. assert (D : n = 0 \/ n = 1 \/ n = 2 \/ n = 3 \/ n = 4 \/ n = 5 \/ n = 6 \/ n = 7 \/ n = 8 \/ n = 9 \/ n = 10 \/ n = 11 \/ n = 12 \/ n = 13 \/ n = 14 \/ n = 15) by lia.
  destruct H as [->| ->]; repeat (destruct D as [->|D]; [vm_compute; repeat split; congruence|]); subst n; vm_compute; repeat split; congruence.
Qed.
Lemma spells_run h x f : spells h x -> bytes_ok x ->
  bytes_ok h /\ exists ds, hexrun (h ++ 10 :: f) = (ds, f) /\ forall v, hexval v ds = fold_left (fun a b => 256 * a + b) x v.
Proof.
  intros S. induction S as [|c d t b x Hc Hd S IH]; intros B.
  - split; [constructor|]. exists []. split; [reflexivity|]. intros; reflexivity.
  - inversion B as [|? ? Bb Bx]; subst. destruct (IH Bx) as (Bt & ds & E & V).
    destruct (hexchar_ok c (b / 16)) as (Xc & Ic & Rc); [dlia|exact Hc|].
    destruct (hexchar_ok d (b mod 16)) as (Xd & Id & Rd); [dlia|exact Hd|].
    split; [constructor; [exact Rc|constructor; [exact Rd|exact Bt]]|].
    exists (ich_of c :: ich_of d :: ds). cbn [app hexrun]. rewrite Xc, Xd, E. split; [reflexivity|].
    intros v. cbn [hexval fold_left]. fold (hexval (16 * (16 * v + ich_of c) + ich_of d) ds). rewrite V, Ic, Id. f_equal. dlia.
Qed.
Lemma spells_text h x f : spells h x -> bytes_ok x -> 0 < zlen x -> hextext (h ++ 10 :: f) = hexrun (h ++ 10 :: f).
Proof.
  intros S B H. destruct S as [|c d t b x Hc Hd S]; [change (zlen (@nil Z)) with 0 in H; lia|].
  inversion B as [|? ? Bb Bx]; subst. destruct (hexchar_ok c (b / 16)) as (Xc & _); [dlia|exact Hc|].
  cbn [app hextext]. rewrite Xc. reflexivity.
Qed.
Lemma line_read name x t f : line name x t -> bytes_ok x -> 0 < zlen x ->
  read_hex (t ++ f) (zlen x) (str name) = (1, x, f).
Proof.
  intros (h & S & ->) B H. unfold read_hex. rewrite <- !app_assoc. rewrite find_here. cbn [app].
  rewrite (spells_text h x f S B H). destruct (spells_run h x f S B) as (_ & ds & -> & V). cbn [fst snd].
  rewrite V. change (fold_left (fun a b => 256 * a + b) x 0) with (int_of_be x). rewrite be_bytes_int by exact B. reflexivity.
Qed.

(** ** fscanf *)
Lemma skip_space_len f : (List.length (skip_space f) <= List.length f)%nat.
Proof. induction f as [|c f IH]; cbn [skip_space]; [lia|]. destruct (isspace c); cbn [List.length]; lia. Qed.
Lemma skip_space_bytes f : bytes_ok f -> bytes_ok (skip_space f).
Proof. induction f as [|c f IH]; cbn [skip_space]; intros B; [constructor|]. destruct (isspace c); [apply IH; inversion B; assumption|exact B]. Qed.
Lemma digits_rest f : forall v n, (List.length (snd (digits v n f)) <= List.length f)%nat /\ (bytes_ok f -> bytes_ok (snd (digits v n f))).
Proof.
  induction f as [|c f IH]; intros v n; cbn [digits]; [split; [cbn; lia|auto]|].
  destruct (isdigit c); [|split; [cbn; lia|auto]]. destruct (IH (10 * v + (c - 48)) (n + 1)) as (H1 & H2).
  split; [cbn [List.length]; lia|]. intros B. apply H2. inversion B; assumption.
Qed.
Lemma fscanf_rest f : match fscanf_d f with
  | Err e => e = UB_overflow
  | Ok (_, r) _ => (List.length r <= List.length f)%nat /\ (bytes_ok f -> bytes_ok r)
  end.
Proof.
  unfold fscanf_d. pose proof (skip_space_len f) as H1. pose proof (skip_space_bytes f) as H2.
  set (g := skip_space f) in *.
  assert (H3 : exists neg h, sign g = (neg, h) /\ (List.length h <= List.length g)%nat /\ (bytes_ok g -> bytes_ok h)).
  { destruct g as [|c l]; cbn [sign]; [exists false, []; split; [reflexivity|]; split; [lia|auto]|].
    destruct (c =? 43); [|destruct (c =? 45)]; eexists _, _; (split; [reflexivity|]); (split; [cbn [List.length]; lia|]); intros B; try exact B; inversion B; assumption. }
  destruct H3 as (neg & h & -> & H4 & H5).
  pose proof (digits_rest h 0 0) as (H6 & H7). destruct (digits 0 0 h) as [[v n] r]. cbn [snd] in *.
  destruct (n =? 0); [split; [lia|auto]|]. unfold i32.
  destruct (_ && _); cbn; [split; [lia|auto]|reflexivity].
Qed.
Lemma digits_dec t rest : Forall (fun c => 48 <= c <= 57) t -> forall v n,
  digits v n (t ++ 10 :: rest) = (fold_left (fun v c => 10 * v + (c - 48)) t v, n + zlen t, 10 :: rest).
Proof.
  intros H. induction H as [|c t Hc H IH]; intros v n.
  - cbn. change (zlen (@nil Z)) with 0. rewrite Z.add_0_r. reflexivity.
  - cbn [app digits fold_left]. unfold isdigit. destruct (Z.leb_spec 48 c), (Z.leb_spec c 57); try lia. cbn [andb].
    rewrite IH, zlen_cons. f_equal. f_equal. lia.
Qed.
Lemma fold_dec_nonneg t : Forall (fun c => 48 <= c <= 57) t -> forall v, 0 <= v -> 0 <= fold_left (fun v c => 10 * v + (c - 48)) t v.
Proof. intros H. induction H as [|c t Hc H IH]; intros v Hv; cbn [fold_left]; [exact Hv|]. apply IH. lia. Qed.
Lemma fscanf_dec t rest : decimal t -> exists v tr, fscanf_d (t ++ 10 :: rest) = Ok (Some v, 10 :: rest) tr.
Proof.
  intros (Hne & Hd & Hv). unfold fscanf_d. destruct t as [|c t]; [contradiction|]. inversion Hd as [|? ? Hc Hd']; subst.
  assert (Es : skip_space ((c :: t) ++ 10 :: rest) = (c :: t) ++ 10 :: rest).
  { cbn [app skip_space]. unfold isspace. destruct (Z.eqb_spec c 32); [lia|]. destruct (Z.leb_spec 9 c), (Z.leb_spec c 13); cbn [andb orb]; try reflexivity; lia. }
  rewrite Es.
  assert (Em : sign ((c :: t) ++ 10 :: rest) = (false, (c :: t) ++ 10 :: rest)).
  { cbn [app sign]. destruct (Z.eqb_spec c 43); [lia|]. destruct (Z.eqb_spec c 45); [lia|]. reflexivity. }
  rewrite Em. rewrite digits_dec by exact Hd. rewrite zlen_cons. pose proof (zlen_nonneg t).
  destruct (Z.eqb_spec (0 + (1 + zlen t)) 0); [lia|]. unfold i32. cbv iota.
  pose proof (fold_dec_nonneg (c :: t) Hd 0 ltac:(lia)) as Hn.
  set (v := fold_left _ (c :: t) 0) in *. change (2 ^ 31) with 2147483648 in Hv.
  destruct (Z.leb_spec (-2147483648) v), (Z.ltb_spec v 2147483648); try lia. eexists _, _. reflexivity.
Qed.

(** ** main *)
(** The four values the standard and the specification prescribe for a seed. *)
Definition values (P : params) (g : genA) (seed : bytes) : bytes * bytes * bytes * bytes :=
  let '(rnd, st) := Generate (Instantiate seed (zrep 48 0)) (2 * pCB P + 16) in
  let '(PK, SK) := KeyGen P g (zslice rnd 0 (pCB P)) (zslice rnd (pCB P) (pCB P)) (zslice rnd (2 * pCB P) 16) in
  let '(CT, SS) := Encaps P g PK (fst (Generate st (bytesMu P))) in
  (PK, SK, CT, SS).
(** One turn, as a function of the file alone. *)
Inductive outcome := SBad | SStop (code : Z) | SNext (f : stream).
Definition eqb (a b : bytes) : bool := if list_eq_dec Z.eq_dec a b then true else false.
Definition step_spec (P : params) (g : genA) (f : stream) : outcome :=
  match find (str "count = ") f with
  | None => SStop 0
  | Some f =>
    match fscanf_d f with
    | Err _ => SBad
    | Ok (None, _) _ => SStop 0
    | Ok (Some _, f) _ =>
      let '(ok, seed, f) := read_hex f 48 (str "seed = ") in
      if ok =? 0 then SStop (-3) else
      let '(PK, SK, CT, SS) := values P g seed in
      let '(ok, pk, f) := read_hex f (pkBytes P) (str "pk = ") in
      if ok =? 0 then SStop (-3) else
      let '(ok, sk, f) := read_hex f (skBytes P) (str "sk = ") in
      if ok =? 0 then SStop (-3) else
      if negb (eqb PK pk) then SStop (-2) else
      if negb (eqb SK sk) then SStop (-2) else
      let '(ok, ct, f) := read_hex f (ctBytes P) (str "ct = ") in
      if ok =? 0 then SStop (-3) else
      let '(ok, ss, f) := read_hex f (pCB P) (str "ss = ") in
      if ok =? 0 then SStop (-3) else
      if negb (eqb CT ct) then SStop (-2) else
      if negb (eqb SS ss) then SStop (-2) else
      if negb (eqb SS (Decaps P g SK CT)) then SStop (-4) else SNext f
    end
  end.

(** main's arrays: inside the memory, pairwise disjoint, sk at an even address. *)
Definition frame_ok (P : params) (mem : list Z) (fr : frame) : Prop :=
  region mem (a_pk fr) (pkBytes P) /\ region mem (a_sk fr) (skBytes P) /\ region mem (a_ct fr) (ctBytes P) /\
  region mem (a_ss fr) (pCB P) /\ region mem (a_ss1 fr) (pCB P) /\
  ForallOrdPairs (fun x y => disjoint (fst x) (snd x) (fst y) (snd y))
    [(a_pk fr, pkBytes P); (a_sk fr, skBytes P); (a_ct fr, ctBytes P); (a_ss fr, pCB P); (a_ss1 fr, pCB P)] /\
  a_sk fr mod 2 = 0.
Lemma read_hex_rest f L m : (List.length (snd (read_hex f L m)) <= List.length f)%nat /\ (bytes_ok f -> bytes_ok (snd (read_hex f L m))).
Proof.
  unfold read_hex. destruct (find m f) as [r|] eqn:E; cbn [snd].
  - pose proof (hextext_len r). pose proof (find_len m f r E). split; [lia|]. intros B. apply hextext_bytes, (find_bytes m f r B E).
  - split; [cbn; lia|]. intros; constructor.
Qed.
Lemma read_hex_val f L m : 0 <= L -> bytestr L (snd (fst (read_hex f L m))).
Proof.
  intros HL. unfold read_hex. destruct (find m f); cbn [fst snd]; split; try apply be_bytes_ok; try (apply zlen_be_bytes; lia).
  - apply zlen_zrep; lia.
  - apply inrange_zrep0; lia.
Qed.
Ltac marker := first [ split; vm_compute; congruence | repeat (constructor; [reflexivity|]); constructor ].
Lemma eqb_spec a b : reflect (a = b) (eqb a b).
Proof. unfold eqb. destruct (list_eq_dec Z.eq_dec a b); constructor; assumption. Qed.
Lemma memcmp_wp mem a x n y : holds mem a n y -> zlen x = n -> 0 <= n -> wp (memcmp_eq mem a x n) (fun e => e = eqb y x).
Proof.
  intros ((H1 & H2) & <-) Lx Hn. unfold memcmp_eq. apply wp_bind, wp_sub; try lia. apply wp_bind, wp_sub; try lia.
  apply wp_ret. rewrite (zslice_all_n x n Lx). reflexivity.
Qed.
Lemma holds_same mem a n x : region mem a n -> zlen x = n -> 0 <= n -> holds (stored mem a x) a n x.
Proof.
  intros (H1 & H2) L Hn. split; [split; [exact H1|]; unfold stored; rewrite zlen_zsplice; lia|].
  unfold stored. rewrite <- L at 1. apply zsplice_slice_same; lia.
Qed.
Lemma holds_other mem a n x b m y : holds mem b m y -> region mem a n -> zlen x = n -> 0 <= n -> 0 <= m -> disjoint a n b m -> holds (stored mem a x) b m y.
Proof.
  intros ((H1 & H2) & H3) (H4 & H5) L Hn Hm D. split; [split; [exact H1|]; unfold stored; rewrite zlen_zsplice; lia|].
  rewrite <- H3. unfold stored. apply zslice_zsplice_other; try lia. unfold disjoint in D. lia.
Qed.
Lemma region_stored mem a x b m : region mem b m -> region mem a (zlen x) -> region (stored mem a x) b m.
Proof. intros (H1 & H2) (H3 & H4). split; [exact H1|]. unfold stored. rewrite zlen_zsplice; lia. Qed.

Section Main.
Variables (C : config) (im : aesimpl) (fr : frame).
Notation P := (cP C).
Notation g := (cGen C).
Hypothesis V : valid P.
Hypothesis Hb : build_ok C.
Hypothesis Hn : 2 * pCB P + 16 < 2 ^ 31.
Lemma kat_sizes : 0 < pCB P /\ 0 < pkBytes P /\ 0 < skBytes P /\ 0 < ctBytes P /\ 0 <= bytesMu P < 2 ^ 31.
Proof.
  destruct (F_sizes P g V) as (HN & HD & HB & HCB & HDN & ENN & EbB & EbC & EbMu & Epk & Esk & Ect).
  pose proof (v_B8 _ V). lia.
Qed.
Lemma state_ctx d st : state_is d st -> ctx d.
Proof. intros ((L & _) & _ & E1 & E2). split; [rewrite E1; exact L|rewrite E2; apply zlen_be128]. Qed.
Lemma read_step L name (k : Z * bytes * stream -> res turn) f Q : 1 <= L -> 1 <= zlen (str name) <= 49 -> Forall (fun c => 0 < c) (str name) -> bytes_ok f ->
  (forall ok x f', read_hex f L (str name) = (ok, x, f') -> bytestr L x -> bytes_ok f' -> wp (k (ok, x, f')) Q) ->
  wp (bind (ReadHex f (uninit L) L (str name)) k) Q.
Proof.
  intros HL L1 L2 Bf H. apply wp_bind. eapply wp_mono; [apply ReadHex_wp; try assumption; apply zlen_uninit; lia|].
  intros r ->. pose proof (read_hex_val f L (str name) ltac:(lia)) as Hv. pose proof (proj2 (read_hex_rest f L (str name)) Bf) as Br.
  destruct (read_hex f L (str name)) as [[ok x] f'] eqn:E. cbn [fst snd] in *. apply (H ok x f'); auto.
Qed.
Definition post (o : outcome) (t : turn) : Prop :=
  match o with
  | SBad => False
  | SStop c => t = Stop c
  | SNext f' => exists mem' d', t = Next f' mem' d' /\ frame_ok P mem' fr /\ ctx d'
  end.
Ltac stop := apply wp_branch; [intros _|discriminate]; apply wp_ret; reflexivity.
Ltac go := apply wp_branch; [discriminate|intros _].
Lemma kat_turn_ok f mem d : frame_ok P mem fr -> ctx d -> bytes_ok f ->
  (step_spec P g f = SBad /\ kat_turn C im fr f mem d = Err UB_overflow) \/
  wp (kat_turn C im fr f mem d) (post (step_spec P g f)).
Proof.
  intros (Rpk & Rsk & Rct & Rss & Rss1 & Ds & Hal) Hc Bf. destruct kat_sizes as (HCB & Hpk & Hsk & Hct & Hmu).
  assert (Dis : disjoint (a_pk fr) (pkBytes P) (a_sk fr) (skBytes P) /\ disjoint (a_ct fr) (ctBytes P) (a_pk fr) (pkBytes P) /\
     disjoint (a_ct fr) (ctBytes P) (a_sk fr) (skBytes P) /\ disjoint (a_ss fr) (pCB P) (a_sk fr) (skBytes P) /\
     disjoint (a_ss fr) (pCB P) (a_ct fr) (ctBytes P) /\ disjoint (a_ss1 fr) (pCB P) (a_ss fr) (pCB P)).
  { inversion Ds as [|? ? D1 Ds1]; subst. inversion Ds1 as [|? ? D2 Ds2]; subst. inversion Ds2 as [|? ? D3 Ds3]; subst. inversion Ds3 as [|? ? D4 Ds4]; subst.
    rewrite Forall_forall in D1, D2, D3, D4.
    pose proof (D1 (a_sk fr, skBytes P) ltac:(cbn; auto)). pose proof (D1 (a_ct fr, ctBytes P) ltac:(cbn; auto)).
    pose proof (D2 (a_ct fr, ctBytes P) ltac:(cbn; auto)). pose proof (D2 (a_ss fr, pCB P) ltac:(cbn; auto)).
    pose proof (D3 (a_ss fr, pCB P) ltac:(cbn; auto)). pose proof (D4 (a_ss1 fr, pCB P) ltac:(cbn; auto)).
    cbn [fst snd] in *. unfold disjoint in *. lia. }
  destruct Dis as (Dps & Dcp & Dcs & Dsss & Dssc & Ds1).
  unfold step_spec. pose proof (FindMarker_wp (str "count = ") ltac:(marker) ltac:(marker) f Bf) as (r & tr & EF & Er).
  unfold found in Er. unfold kat_turn. destruct (find (str "count = ") f) as [f1|] eqn:E1; subst r.
  2:{ right. apply wp_bind. exists (0, []), tr. split; [exact EF|]. stop. }
  pose proof (find_bytes _ _ _ Bf E1) as B1. pose proof (fscanf_rest f1) as HS.
  destruct (fscanf_d f1) as [[o f2] tr2|e] eqn:E2.
  2:{ left. split; [reflexivity|]. subst e. rewrite EF. unfold bind at 1. cbv iota. unfold branch at 1. change (1 =? 0) with false. cbv iota.
      rewrite E2. reflexivity. }
  right. destruct HS as (_ & B2). specialize (B2 B1).
  apply wp_bind. exists (1, f1), tr. split; [exact EF|]. go. apply wp_bind. rewrite E2. apply wp_ok.
  destruct o as [v|]; [|apply wp_ret; reflexivity].
  apply read_step; [lia|marker|marker|exact B2|]. intros ok1 seed f3 -> Vs B3.
  destruct (ok1 =? 0); [stop|]. go.
  (* seeding and key pair *)
  destruct (C24_init im d seed None Hc Vs ltac:(intros ? E; discriminate E)) as (d1 & I1 & Id1 & S1).
  apply wp_bind. eapply wp_mono; [apply returns_wp, I1|]. intros x ->.
  pose proof (C24_kat_keypair C im d seed d1 mem (a_pk fr) (a_sk fr) V Hn Hc Vs I1 Rpk Rsk Dps) as HK. cbv zeta in HK.
  unfold values. set (st := Instantiate seed (zrep 48 0)) in *.
  assert (LU : zlen (uninit (2 * pCB P + 16)) = 2 * pCB P + 16) by (apply zlen_uninit; lia).
  destruct (C24_generate im d1 st (uninit (2 * pCB P + 16)) (2 * pCB P + 16) S1 ltac:(lia) ltac:(lia) ltac:(lia)) as (d2 & A1 & Brnd & S2 & Id2).
  assert (A1' : exists b, returns (randombytes_drbg im d1 (uninit (2 * pCB P + 16)) (2 * pCB P + 16)) (b, 0, d2)) by (eexists; exact A1).
  pose proof (fun ct ss pk PK mem => C24_kat_enc C im d1 st (uninit (2 * pCB P + 16)) d2 mem ct ss pk PK V Hb Hn ltac:(lia) S1 Id1 LU A1') as HE. cbv zeta in HE.
  destruct (Generate st (2 * pCB P + 16)) as [rnd st1] eqn:G1. cbn [fst snd] in HK, A1, Brnd, S2, HE. destruct Brnd as (Lrnd & Brnd).
  pose proof (KeyGen_parts P g V (zslice rnd 0 (pCB P)) (zslice rnd (pCB P) (pCB P)) (zslice rnd (2 * pCB P) 16) ltac:(apply zlen_zslice; lia)) as KP.
  destruct (KeyGen P g (zslice rnd 0 (pCB P)) (zslice rnd (pCB P) (pCB P)) (zslice rnd (2 * pCB P) 16)) as [PK SK]. cbv zeta in KP.
  destruct KP as (LPK & BPK & LSK & BSK & _). specialize (BSK (inrange_zslice 256 _ _ _ Brnd)).
  destruct HK as (l1 & HK).
  set (mem1 := stored (stored mem (a_pk fr) PK) (a_sk fr) SK) in *.
  assert (RpkL : region mem (a_pk fr) (zlen PK)) by (rewrite LPK; exact Rpk).
  assert (RskL : region (stored mem (a_pk fr) PK) (a_sk fr) (zlen SK)) by (rewrite LSK; apply region_stored; assumption).
  assert (Rg1 : forall a n, region mem a n -> region mem1 a n) by (intros a n H; apply region_stored; [apply region_stored; assumption|assumption]).
  assert (Hpk1 : holds mem1 (a_pk fr) (pkBytes P) PK).
  { eapply (holds_other _ _ (skBytes P)); [apply holds_same; try assumption; lia|rewrite LSK in RskL; exact RskL|exact LSK|lia|lia|]. unfold disjoint in *; lia. }
  assert (Hsk1 : holds mem1 (a_sk fr) (skBytes P) SK) by (apply holds_same; [rewrite LSK in RskL; exact RskL|exact LSK|lia]).
  clearbody mem1.
  apply wp_bind. eapply wp_mono; [apply returns_wp, HK|]. intros x ->.
  apply wp_bind. unfold after_request at 1. change SEEDA with 16. apply wp_bind. eapply wp_mono; [apply returns_wp, A1|]. intros x ->. apply wp_ret.
  go. destruct (Encaps P g PK (fst (Generate st1 (bytesMu P)))) as [CT SS] eqn:EE.
  apply read_step; [lia|marker|marker|exact B3|]. intros ok2 pk f4 -> (Lpk & _) B4. destruct (ok2 =? 0); [stop|]. go.
  apply read_step; [lia|marker|marker|exact B4|]. intros ok3 sk f5 -> (Lsk & _) B5. destruct (ok3 =? 0); [stop|]. go.
  apply wp_bind. eapply wp_mono; [apply (memcmp_wp _ _ _ _ PK); [exact Hpk1|exact Lpk|lia]|]. intros x ->. destruct (negb (eqb PK pk)); [stop|]. go.
  apply wp_bind. eapply wp_mono; [apply (memcmp_wp _ _ _ _ SK); [exact Hsk1|exact Lsk|lia]|]. intros x ->. destruct (negb (eqb SK sk)); [stop|]. go.
  (* encapsulation *)
  specialize (HE (a_ct fr) (a_ss fr) (a_pk fr) PK mem1 Hpk1 BPK (Rg1 _ _ Rct) (Rg1 _ _ Rss) Dcp). rewrite EE in HE. destruct HE as (l2 & HE).
  pose proof (Encaps_shape P g V PK (fst (Generate st1 (bytesMu P)))) as SH. rewrite EE in SH. destruct SH as (LCT & BCT & LSS & BSS).
  apply wp_bind. eapply wp_mono; [apply returns_wp, HE|]. intros x ->.
  assert (LU2 : zlen (uninit (bytesMu P)) = bytesMu P) by (apply zlen_uninit; lia).
  destruct (C24_generate im d2 st1 (uninit (bytesMu P)) (bytesMu P) S2 ltac:(lia) ltac:(lia) ltac:(lia)) as (d3 & A2 & _ & S3 & _).
  apply wp_bind. unfold after_request. apply wp_bind. eapply wp_mono; [apply returns_wp, A2|]. intros x ->. apply wp_ret. go.
  set (mem2 := stored (stored mem1 (a_ct fr) CT) (a_ss fr) SS) in *.
  assert (RctL : region mem1 (a_ct fr) (zlen CT)) by (rewrite LCT; apply Rg1, Rct).
  assert (RssL : region (stored mem1 (a_ct fr) CT) (a_ss fr) (zlen SS)) by (rewrite LSS; apply region_stored; [apply Rg1, Rss|exact RctL]).
  assert (Rg2 : forall a n, region mem1 a n -> region mem2 a n) by (intros a n H; apply region_stored; [apply region_stored; assumption|assumption]).
  assert (Hsk2 : holds mem2 (a_sk fr) (skBytes P) SK).
  { eapply (holds_other _ _ (pCB P)); [|rewrite LSS in RssL; exact RssL|exact LSS|lia|lia|exact Dsss].
    eapply (holds_other _ _ (ctBytes P)); [exact Hsk1|rewrite LCT in RctL; exact RctL|exact LCT|lia|lia|exact Dcs]. }
  assert (Hct2 : holds mem2 (a_ct fr) (ctBytes P) CT).
  { eapply (holds_other _ _ (pCB P)); [apply holds_same; [rewrite LCT in RctL; exact RctL|exact LCT|lia]|rewrite LSS in RssL; exact RssL|exact LSS|lia|lia|exact Dssc]. }
  assert (Hss2 : holds mem2 (a_ss fr) (pCB P) SS) by (apply holds_same; [rewrite LSS in RssL; exact RssL|exact LSS|lia]).
  clearbody mem2.
  apply read_step; [lia|marker|marker|exact B5|]. intros ok4 ct f6 -> (Lct & _) B6. destruct (ok4 =? 0); [stop|]. go.
  apply read_step; [lia|marker|marker|exact B6|]. intros ok5 ss f7 -> (Lss & _) B7. destruct (ok5 =? 0); [stop|]. go.
  apply wp_bind. eapply wp_mono; [apply (memcmp_wp _ _ _ _ CT); [exact Hct2|exact Lct|lia]|]. intros x ->. destruct (negb (eqb CT ct)); [stop|]. go.
  apply wp_bind. eapply wp_mono; [apply (memcmp_wp _ _ _ _ SS); [exact Hss2|exact Lss|lia]|]. intros x ->. destruct (negb (eqb SS ss)); [stop|]. go.
  (* decapsulation *)
  destruct (C05_dec C mem2 (a_ss1 fr) (a_ct fr) (a_sk fr) CT SK V Hb Hsk2 BSK Hal Hct2 BCT (Rg2 _ _ (Rg1 _ _ Rss1))) as (l3 & HD).
  apply wp_bind. eapply wp_mono; [apply returns_wp, HD|]. intros x ->. go.
  assert (LD : zlen (Decaps P g SK CT) = pCB P).
  { unfold Decaps. destruct (Encrypt _ _ _ _ _ _) as [[? ?] ?]. apply (F_zlen_Hash P g V); lia. }
  set (D := Decaps P g SK CT) in *.
  pose proof (holds_same mem2 (a_ss1 fr) (pCB P) D (Rg2 _ _ (Rg1 _ _ Rss1)) LD ltac:(lia)) as ((H1 & H2) & H3).
  pose proof (holds_other mem2 (a_ss1 fr) (pCB P) D (a_ss fr) (pCB P) SS Hss2 (Rg2 _ _ (Rg1 _ _ Rss1)) LD ltac:(lia) ltac:(lia) Ds1) as Hss3.
  apply wp_bind, wp_sub; [lia|lia|exact H2|]. rewrite H3.
  apply wp_bind. eapply wp_mono; [apply (memcmp_wp _ _ _ _ SS); [exact Hss3|exact LD|lia]|]. intros x ->. destruct (negb (eqb SS D)); [stop|]. go.
  apply wp_ret. exists (stored mem2 (a_ss1 fr) D), d3. split; [reflexivity|]. split; [|apply (state_ctx d3 _ S3)].
  assert (Rg3 : forall a n, region mem a n -> region (stored mem2 (a_ss1 fr) D) a n).
  { intros a n H. apply region_stored; [apply Rg2, Rg1, H|]. rewrite LD. apply Rg2, Rg1, Rss1. }
  unfold frame_ok. repeat (split; [apply Rg3; assumption|]). split; [exact Ds|exact Hal].
Qed.
Lemma step_rest f f' : step_spec P g f = SNext f' -> (List.length f' < List.length f)%nat /\ (bytes_ok f -> bytes_ok f').
Proof.
  unfold step_spec. destruct (find (str "count = ") f) as [f1|] eqn:E1; [|discriminate].
  pose proof (find_len _ _ _ E1) as L1. change (List.length (str "count = ")) with 8%nat in L1.
  pose proof (fun B => find_bytes _ _ _ B E1) as B1. pose proof (fscanf_rest f1) as HS.
  destruct (fscanf_d f1) as [[o f2] tr2|e]; [|discriminate]. destruct HS as (L2 & B2). destruct o; [|discriminate].
  pose proof (read_hex_rest f2 48 (str "seed = ")) as (L3 & B3). destruct (read_hex f2 48 (str "seed = ")) as [[ok1 seed] f3]. cbn [snd] in L3, B3.
  destruct (ok1 =? 0); [discriminate|]. destruct (values P g seed) as [[[PK SK] CT] SS].
  pose proof (read_hex_rest f3 (pkBytes P) (str "pk = ")) as (L4 & B4). destruct (read_hex f3 (pkBytes P) (str "pk = ")) as [[ok2 pk] f4]. cbn [snd] in L4, B4.
  destruct (ok2 =? 0); [discriminate|].
  pose proof (read_hex_rest f4 (skBytes P) (str "sk = ")) as (L5 & B5). destruct (read_hex f4 (skBytes P) (str "sk = ")) as [[ok3 sk] f5]. cbn [snd] in L5, B5.
  destruct (ok3 =? 0); [discriminate|]. destruct (negb (eqb PK pk)); [discriminate|]. destruct (negb (eqb SK sk)); [discriminate|].
  pose proof (read_hex_rest f5 (ctBytes P) (str "ct = ")) as (L6 & B6). destruct (read_hex f5 (ctBytes P) (str "ct = ")) as [[ok4 ct] f6]. cbn [snd] in L6, B6.
  destruct (ok4 =? 0); [discriminate|].
  pose proof (read_hex_rest f6 (pCB P) (str "ss = ")) as (L7 & B7). destruct (read_hex f6 (pCB P) (str "ss = ")) as [[ok5 ss] f7]. cbn [snd] in L7, B7.
  destruct (ok5 =? 0); [discriminate|]. destruct (negb (eqb CT ct)); [discriminate|]. destruct (negb (eqb SS ss)); [discriminate|].
  destruct (negb (eqb SS _)); [discriminate|]. intros E; injection E as <-. split; [lia|auto 10].
Qed.
Lemma step_code f c : step_spec P g f = SStop c -> c = 0 \/ c = -2 \/ c = -3 \/ c = -4.
Proof.
  unfold step_spec. destruct (find (str "count = ") f) as [f1|]; [|intros E; injection E as <-; auto].
  destruct (fscanf_d f1) as [[[v|] f2] tr2|e]; [|intros E; injection E as <-; auto|discriminate].
  destruct (read_hex f2 48 (str "seed = ")) as [[ok1 seed] f3].
  destruct (ok1 =? 0); [intros E; injection E as <-; auto|]. destruct (values P g seed) as [[[PK SK] CT] SS].
  destruct (read_hex f3 (pkBytes P) (str "pk = ")) as [[ok2 pk] f4]. destruct (ok2 =? 0); [intros E; injection E as <-; auto|].
  destruct (read_hex f4 (skBytes P) (str "sk = ")) as [[ok3 sk] f5]. destruct (ok3 =? 0); [intros E; injection E as <-; auto|].
  destruct (negb (eqb PK pk)); [intros E; injection E as <-; auto|]. destruct (negb (eqb SK sk)); [intros E; injection E as <-; auto|].
  destruct (read_hex f5 (ctBytes P) (str "ct = ")) as [[ok4 ct] f6]. destruct (ok4 =? 0); [intros E; injection E as <-; auto|].
  destruct (read_hex f6 (pCB P) (str "ss = ")) as [[ok5 ss] f7]. destruct (ok5 =? 0); [intros E; injection E as <-; auto|].
  destruct (negb (eqb CT ct)); [intros E; injection E as <-; auto|]. destruct (negb (eqb SS ss)); [intros E; injection E as <-; auto|].
  destruct (negb (eqb SS _)); [intros E; injection E as <-; auto|discriminate].
Qed.
(** The verdict on a file, a function of the parameters, the generator of A and the file. *)
Fixpoint verdict (fuel : nat) (f : stream) : option Z :=
  match fuel with
  | O => None
  | Datatypes.S fuel =>
    match step_spec P g f with
    | SBad => None
    | SStop c => Some c
    | SNext f => verdict fuel f
    end
  end.
Lemma kat_loop_ok : forall fuel f mem d, (List.length f < fuel)%nat -> frame_ok P mem fr -> ctx d -> bytes_ok f ->
  match verdict fuel f with
  | None => kat_loop fuel C im fr f mem d = Err UB_overflow
  | Some c => wp (kat_loop fuel C im fr f mem d) (fun r => r = c) /\ (c = 0 \/ c = -2 \/ c = -3 \/ c = -4)
  end.
Proof.
  induction fuel as [|fuel IH]; intros f mem d Hf Fo Hc Bf; [lia|]. cbn [verdict kat_loop].
  destruct (kat_turn_ok f mem d Fo Hc Bf) as [(-> & ->)|W]; [reflexivity|].
  destruct (step_spec P g f) as [|c|f'] eqn:E; cbn [post] in W.
  - destruct W as (? & ? & _ & []).
  - split; [|apply (step_code f c E)]. apply wp_bind. eapply wp_mono; [exact W|]. intros t ->. apply wp_ret. reflexivity.
  - destruct (step_rest f f' E) as (L & B). destruct W as (t & tr & ET & mem' & d' & -> & Fo' & Hc').
    specialize (IH f' mem' d' ltac:(lia) Fo' Hc' (B Bf)). destruct (verdict fuel f').
    + destruct IH as (W & Hz). split; [|exact Hz]. apply wp_bind. eexists _, tr. split; [exact ET|exact W].
    + rewrite ET. unfold bind. rewrite IH. reflexivity.
Qed.
End Main.

Lemma right_values P g r : right P g r <-> values P g (k_seed r) = (k_pk r, k_sk r, k_ct r, k_ss r).
Proof.
  unfold right, values. destruct (Generate _ (2 * pCB P + 16)) as [rnd st]. destruct (KeyGen P g _ _ _) as [PK SK].
  destruct (Generate st (bytesMu P)) as [mu st']. cbn [fst]. destruct (Encaps P g PK mu) as [CT SS].
  split; [intros (-> & -> & -> & ->); reflexivity|]. intros E; injection E as -> -> -> ->. auto.
Qed.
Lemma count_gap gap s : ~ occurs (str "count = ") gap -> find (str "count = ") (gap ++ str "count = " ++ s) = Some s.
Proof.
  intros H. change (str "count = ") with (99 :: [111; 117; 110; 116; 32; 61; 32]) in *. apply find_gap; [|exact H].
  cbn. lia.
Qed.
Lemma nl_read n x t f : line n x t -> (forall c l, str n = c :: l -> c <> 10) -> str n <> [] -> bytes_ok x -> 0 < zlen x ->
  read_hex (10 :: t ++ f) (zlen x) (str n) = (1, x, f).
Proof.
  intros Hl Hc Hne B H. rewrite <- (line_read n x t f Hl B H). unfold read_hex.
  assert (E : find (str n) (10 :: t ++ f) = find (str n) (t ++ f)); [|rewrite E; reflexivity].
  cbn [find]. destruct (str n) as [|c l]; [contradiction|]. specialize (Hc c l eq_refl).
  cbn [List.length firstn]. destruct (list_eq_dec Z.eq_dec (10 :: firstn (List.length l) (t ++ f)) (c :: l)) as [E|_]; [|reflexivity].
  injection E as E _. congruence.
Qed.
(** A record in the file, after text without the marker. *)
Lemma step_record P g r gap t f : valid P -> ~ occurs (str "count = ") gap -> written P r t ->
  match step_spec P g (gap ++ t ++ f) with
  | SBad => False
  | SStop c => c = -2 /\ ~ right P g r \/ c = -4 /\ right P g r /\ ~ decapsulates P g r
  | SNext f' => f' = f /\ right P g r /\ decapsulates P g r
  end.
Proof.
  intros V Hg (((L1 & B1) & (L2 & B2) & (L3 & B3) & (L4 & B4) & (L5 & B5)) & n & l1 & l2 & l3 & l4 & l5 & Hn & W1 & W2 & W3 & W4 & W5 & ->).
  destruct (F_sizes P g V) as (HN & HD & HB & HCB & HDN & _ & _ & _ & _ & Epk & Esk & Ect).
  unfold step_spec. rewrite <- !app_assoc. rewrite count_gap by exact Hg. cbn [app].
  destruct (fscanf_dec n (l1 ++ l2 ++ l3 ++ l4 ++ l5 ++ f) Hn) as (v & tr & ->).
  rewrite <- L1. rewrite (nl_read "seed = " (k_seed r) l1 _ W1); [|intros c l E; injection E as <-; lia|discriminate|exact B1|lia].
  change (1 =? 0) with false. cbv iota.
  pose proof (right_values P g r) as HR. destruct (values P g (k_seed r)) as [[[PK SK] CT] SS].
  rewrite <- L2, <- L3, <- L4, <- L5.
  rewrite (line_read "pk = " _ _ _ W2 B2) by lia. change (1 =? 0) with false. cbv iota.
  rewrite (line_read "sk = " _ _ _ W3 B3) by lia. change (1 =? 0) with false. cbv iota.
  destruct (eqb_spec PK (k_pk r)) as [->|N]; cbn [negb]; [|left; split; [reflexivity|rewrite HR; congruence]].
  destruct (eqb_spec SK (k_sk r)) as [->|N]; cbn [negb]; [|left; split; [reflexivity|rewrite HR; congruence]].
  rewrite (line_read "ct = " _ _ _ W4 B4) by lia. change (1 =? 0) with false. cbv iota.
  rewrite (line_read "ss = " _ _ _ W5 B5) by lia. change (1 =? 0) with false. cbv iota.
  destruct (eqb_spec CT (k_ct r)) as [->|N]; cbn [negb]; [|left; split; [reflexivity|rewrite HR; congruence]].
  destruct (eqb_spec SS (k_ss r)) as [->|N]; cbn [negb]; [|left; split; [reflexivity|rewrite HR; congruence]].
  unfold decapsulates. destruct (eqb_spec (k_ss r) (Decaps P g (k_sk r) (k_ct r))) as [E|N]; cbn [negb].
  - split; [reflexivity|]. split; [apply HR; reflexivity|congruence].
  - right. split; [reflexivity|]. split; [apply HR; reflexivity|congruence].
Qed.
Lemma step_end P g text : ~ occurs (str "count = ") text -> step_spec P g text = SStop 0.
Proof. intros H. unfold step_spec. apply find_none in H. rewrite H. reflexivity. Qed.
Lemma verdict_file C rs : valid (cP C) -> forall f fuel, response_file (cP C) rs f -> (List.length f < fuel)%nat ->
  exists c, verdict C fuel f = Some c /\
    (c = 0 <-> Forall (fun r => right (cP C) (cGen C) r /\ decapsulates (cP C) (cGen C) r) rs) /\
    (c = -2 -> Exists (fun r => ~ right (cP C) (cGen C) r) rs) /\
    (c = -4 -> Exists (fun r => right (cP C) (cGen C) r /\ ~ decapsulates (cP C) (cGen C) r) rs) /\
    (c = 0 \/ c = -2 \/ c = -4).
Proof.
  intros V. induction rs as [|r rs IH]; intros f fuel Hf Hl; inversion Hf as [text Ht|? ? text t f' Ht Hw Hf']; subst;
    (destruct fuel as [|fuel]; [lia|]); cbn [verdict].
  - rewrite step_end by exact Ht. exists 0. split; [reflexivity|]. split; [split; [constructor|reflexivity]|].
    split; [lia|]. split; [lia|]. left; reflexivity.
  - pose proof (step_record (cP C) (cGen C) r text t f' V Ht Hw) as HS. pose proof (step_rest C (text ++ t ++ f')) as HL.
    destruct (step_spec (cP C) (cGen C) (text ++ t ++ f')) as [|c|f2].
    + destruct HS.
    + exists c. split; [reflexivity|]. destruct HS as [(-> & HS)|(-> & HS)].
      * split; [split; [discriminate|]; intros H; inversion H; tauto|]. split; [intros _; apply Exists_cons_hd, HS|]. split; [discriminate|auto].
      * split; [split; [discriminate|]; intros H; inversion H; tauto|]. split; [discriminate|]. split; [intros _; apply Exists_cons_hd, HS|auto].
    + destruct HS as (-> & HS1 & HS2). destruct (HL f' eq_refl) as (HL' & _).
      destruct (IH f' fuel Hf' ltac:(lia)) as (c & E & H1 & H2 & H3 & H4). exists c. split; [exact E|].
      split; [rewrite H1; split; intros H; [constructor; auto|inversion H; assumption]|].
      split; [intros Ec; apply Exists_cons_tl, H2, Ec|]. split; [intros Ec; apply Exists_cons_tl, H3, Ec|exact H4].
Qed.
Lemma verdict_same C1 C2 : cP C1 = cP C2 -> cGen C1 = cGen C2 -> forall n h, verdict C2 n h = verdict C1 n h.
Proof.
  intros EP EG. induction n as [|n IH]; intros h; cbn [verdict]; [reflexivity|].
  rewrite EP, EG. destruct (step_spec (cP C2) (cGen C2) h); auto.
Qed.
Lemma find_first m s r : find m s = Some r -> exists a, s = a ++ m ++ r /\ forall a' b', s = a' ++ m ++ b' -> zlen a <= zlen a'.
Proof.
  revert r. induction s as [|c s IH]; intros r; cbn [find].
  - destruct (list_eq_dec Z.eq_dec (firstn (List.length m) []) m) as [E|_]; [|discriminate].
    rewrite firstn_nil in E. subst m. intros H; injection H as <-. exists []. split; [reflexivity|]. intros a' b' _. apply zlen_nonneg.
  - destruct (list_eq_dec Z.eq_dec (firstn (List.length m) (c :: s)) m) as [E|N].
    + intros H; injection H as <-. exists []. split; [|intros a' b' _; apply zlen_nonneg]. rewrite <- E at 1. cbn [app]. rewrite firstn_skipn. reflexivity.
    + intros H. destruct (IH r H) as (a & -> & Hmin). exists (c :: a). split; [reflexivity|].
      intros [|c' a'] b' E'.
      * exfalso. apply N. rewrite E'. cbn [app]. rewrite firstn_app, Nat.sub_diag, firstn_all, firstn_O, app_nil_r. reflexivity.
      * cbn [app] in E'. injection E' as <- E'. rewrite !zlen_cons. specialize (Hmin a' b' E'). lia.
Qed.
Lemma int_be_bytes L v : 0 <= L -> 0 <= v -> int_of_be (be_bytes L v) = v mod 2 ^ (8 * L).
Proof.
  intros HL. revert v. pattern L. apply natlike_ind; [|clear L HL; intros L HL IH|exact HL]; intros v Hv.
  - rewrite Z.mod_1_r. reflexivity.
  - assert (E : be_bytes (Z.succ L) v = be_bytes L (v / 256) ++ [v mod 256]).
    { apply list_ext; [rewrite zlen_app, !zlen_be_bytes by lia; change (zlen [v mod 256]) with 1; lia|]. rewrite zlen_be_bytes by lia. intros i Hi.
      unfold be_bytes at 1. rewrite znth_ztab by lia. destruct (Z.eq_dec i L) as [->|].
      - rewrite znth_app2, zlen_be_bytes, Z.sub_diag by (rewrite ?zlen_be_bytes; lia). replace (8 * (Z.succ L - 1 - L)) with 0 by lia. rewrite Z.div_1_r. reflexivity.
      - rewrite znth_app1 by (rewrite zlen_be_bytes; lia). unfold be_bytes. rewrite znth_ztab by lia. f_equal.
        replace (8 * (Z.succ L - 1 - i)) with (8 + 8 * (L - 1 - i)) by lia. rewrite Z.pow_add_r by lia. change (2 ^ 8) with 256.
        symmetry. apply Z.div_div; [lia|apply Z.pow_pos_nonneg; lia]. }
    rewrite E. unfold int_of_be. rewrite fold_left_app. cbn [fold_left]. fold (int_of_be (be_bytes L (v / 256))).
    rewrite IH by (apply Z.div_pos; lia). replace (8 * Z.succ L) with (8 + 8 * L) by lia. rewrite Z.pow_add_r by lia. change (2 ^ 8) with 256.
    rewrite (Z.rem_mul_r v 256) by (try lia; apply Z.pow_pos_nonneg; lia). lia.
Qed.
(** Any hexadecimal text. *)
Lemma hexrun_digits h ds e f : Forall2 hexchar h ds -> Forall (fun n => 0 <= n < 16) ds -> isxdigit e = false -> hexrun (h ++ e :: f) = (ds, f).
Proof.
  intros H. induction H as [|c n h ds Hc H IH]; intros Hd He.
  - cbn [app hexrun]. rewrite He. reflexivity.
  - inversion Hd as [|? ? Hn Hd']; subst. destruct (hexchar_ok c n Hn Hc) as (X & I & _). cbn [app hexrun]. rewrite X, (IH Hd' He), I. reflexivity.
Qed.
Lemma hextext_skip junk f : Forall (fun c => isxdigit c = false /\ c <> 10) junk -> hextext (junk ++ f) = hextext f.
Proof.
  intros H. induction H as [|c junk (Hx & H10) H IH]; [reflexivity|]. cbn [app hextext]. rewrite Hx. destruct (Z.eqb_spec c 10); [contradiction|exact IH].
Qed.
Lemma hexval_nonneg ds : Forall (fun n => 0 <= n < 16) ds -> forall v, 0 <= v -> 0 <= hexval v ds.
Proof. intros H. induction H as [|n ds Hn H IH]; intros v Hv; cbn [hexval fold_left]; [exact Hv|]. apply IH. lia. Qed.
(** The values for a seed have the right sizes. *)
Lemma values_shape P g seed : valid P -> 2 * pCB P + 16 < 2 ^ 31 -> bytestr 48 seed ->
  let '(PK, SK, CT, SS) := values P g seed in
  bytestr (pkBytes P) PK /\ bytestr (skBytes P) SK /\ bytestr (ctBytes P) CT /\ bytestr (pCB P) SS.
Proof.
  intros V Hn Hs. pose proof (v_CB _ V) as HCB. unfold values.
  destruct (C24_init AesC {| d_Key := uninit 32; d_V := uninit 16; d_reseed := 0 |} seed None (conj eq_refl eq_refl) Hs ltac:(intros ? E; discriminate E)) as (d1 & _ & _ & (L & B) & _).
  destruct (Generate_ok _ (2 * pCB P + 16) L B ltac:(lia)) as (Lr & Br & L1 & B1 & _).
  destruct (Generate (Instantiate seed (zrep 48 0)) (2 * pCB P + 16)) as [rnd st]. cbn [fst snd] in *.
  pose proof (KeyGen_parts P g V (zslice rnd 0 (pCB P)) (zslice rnd (pCB P) (pCB P)) (zslice rnd (2 * pCB P) 16) ltac:(apply zlen_zslice; lia)) as KP.
  destruct (KeyGen P g _ _ _) as [PK SK]. cbv zeta in KP. destruct KP as (LPK & BPK & LSK & BSK & _). specialize (BSK (inrange_zslice 256 _ _ _ Br)).
  pose proof (Encaps_shape P g V PK (fst (Generate st (bytesMu P)))) as SH. destruct (Encaps P g PK _) as [CT SS]. destruct SH as (? & ? & ? & ?).
  repeat split; assumption.
Qed.
