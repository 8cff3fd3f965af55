(** The numerical side of the tail bound: certified upper and lower bounds in 60-bit fixed
    point and in short floating point. *)
From Verif Require Import CSem Params UtilSpec KeccakSpec AesSpec MatrixSpec FrodoSpec FailSpec Tail.
Local Opaque wsum.

Definition one60 : Z := 2 ^ 60.
(** Upper bounds of x (a/b)^j, j = 0 .. m. *)
Fixpoint up_tab (a b : Z) (m : nat) (x : Z) : list Z :=
  x :: match m with O => [] | Datatypes.S m => up_tab a b m (x * a / b + 1) end.
Lemma up_tab_ok a b : 0 < a -> 0 < b -> forall m x j, 0 <= j <= Z.of_nat m -> x * a ^ j <= znth (up_tab a b m x) j * b ^ j.
Proof.
  intros Ha Hb m. induction m as [|m IH]; intros x j Hj.
  - replace j with 0 by lia. cbn. lia.
  - destruct (Z.eqb_spec j 0) as [->|Hj0]; [cbn; lia|].
    change (up_tab a b (Datatypes.S m) x) with (x :: up_tab a b m (x * a / b + 1)). rewrite znth_consS by lia.
    specialize (IH (x * a / b + 1) (j - 1) ltac:(lia)).
    replace j with ((j - 1) + 1) at 1 3 by lia. rewrite !Z.pow_add_r, !Z.pow_1_r by lia.
    assert (H1 : x * a <= (x * a / b + 1) * b) by (pose proof (Z.mul_div_le (x * a) b Hb); pose proof (Z.mod_pos_bound (x * a) b Hb);
      pose proof (Z.div_mod (x * a) b ltac:(lia)); lia).
    assert (0 < a ^ (j - 1)) by (apply Z.pow_pos_nonneg; lia).
    set (u := x * a / b + 1) in *. set (v := znth _ _) in *. set (p := a ^ (j - 1)) in *. set (q := b ^ (j - 1)) in *.
    assert (H2 : x * a * p <= u * b * p) by (apply Z.mul_le_mono_nonneg_r; lia).
    assert (H3 : u * p * b <= v * q * b) by (apply Z.mul_le_mono_nonneg_r; lia). lia.
Qed.
(** Upper bound of 2^60 (c/d)^y. *)
Definition ubw (tp tn : list Z) (y : Z) : Z := if 0 <=? y then znth tp y else znth tn (- y).
Lemma ubw_ok c d m y : 0 < d -> 0 < c -> Z.abs y <= m ->
  wt c d m y * one60 <= ubw (up_tab c d (Z.to_nat m) one60) (up_tab d c (Z.to_nat m) one60) y * (c * d) ^ m.
Proof.
  intros Hd Hc Hy. unfold ubw, wt. rewrite Z.pow_mul_l.
  destruct (Z.leb_spec 0 y) as [H|H].
  - pose proof (up_tab_ok c d Hc Hd (Z.to_nat m) one60 y ltac:(lia)) as K. set (v := znth _ _) in *.
    replace (d ^ m) with (d ^ y * d ^ (m - y)) by (rewrite <- Z.pow_add_r by lia; f_equal; lia).
    rewrite Z.pow_add_r by lia.
    assert (0 < c ^ m * d ^ (m - y)) by (apply Z.mul_pos_pos; apply Z.pow_pos_nonneg; lia).
    transitivity (c ^ m * d ^ (m - y) * (one60 * c ^ y)); [apply Z.eq_le_incl; ring|].
    transitivity (c ^ m * d ^ (m - y) * (v * d ^ y)); [apply Z.mul_le_mono_nonneg_l; lia|apply Z.eq_le_incl; ring].
  - pose proof (up_tab_ok d c Hd Hc (Z.to_nat m) one60 (- y) ltac:(lia)) as K. set (v := znth _ _) in *.
    replace (c ^ m) with (c ^ (- y) * c ^ (m + y)) by (rewrite <- Z.pow_add_r by lia; f_equal; lia).
    replace (m - y) with (m + - y) by lia. rewrite (Z.pow_add_r d m) by lia.
    assert (0 < c ^ (m + y) * d ^ m) by (apply Z.mul_pos_pos; apply Z.pow_pos_nonneg; lia).
    transitivity (c ^ (m + y) * d ^ m * (one60 * d ^ (- y))); [apply Z.eq_le_incl; ring|].
    transitivity (c ^ (m + y) * d ^ m * (v * c ^ (- y))); [apply Z.mul_le_mono_nonneg_l; lia|apply Z.eq_le_incl; ring].
Qed.

(** x^p between short numbers times powers of two. *)
Definition rnd_up (a e : Z) : Z * Z := if a <? 2 ^ 80 then (a, e) else let s := Z.log2 a - 70 in (a / 2 ^ s + 1, e + s).
Definition rnd_dn (a e : Z) : Z * Z := if a <? 2 ^ 80 then (a, e) else let s := Z.log2 a - 70 in (a / 2 ^ s, e + s).
Fixpoint pow_up (x : Z) (p : positive) : Z * Z :=
  match p with
  | xH => (x, 0)
  | xO p => let '(a, e) := pow_up x p in rnd_up (a * a) (2 * e)
  | xI p => let '(a, e) := pow_up x p in rnd_up (a * a * x) (2 * e)
  end.
Fixpoint pow_dn (x : Z) (p : positive) : Z * Z :=
  match p with
  | xH => (x, 0)
  | xO p => let '(a, e) := pow_dn x p in rnd_dn (a * a) (2 * e)
  | xI p => let '(a, e) := pow_dn x p in rnd_dn (a * a * x) (2 * e)
  end.
Lemma shift_nonneg a : 2 ^ 80 <= a -> 0 <= Z.log2 a - 70.
Proof. intros H. assert (80 <= Z.log2 a) by (apply Z.log2_le_pow2; lia). lia. Qed.
Lemma rnd_up_ok a e : 0 <= a -> 0 <= e -> 0 <= fst (rnd_up a e) /\ 0 <= snd (rnd_up a e) /\ a * 2 ^ e <= fst (rnd_up a e) * 2 ^ snd (rnd_up a e).
Proof.
  intros Ha He. unfold rnd_up. destruct (Z.ltb_spec a (2 ^ 80)) as [H|H]; cbn [fst snd]; [lia|].
  pose proof (shift_nonneg a H) as Hs. set (s := Z.log2 a - 70) in *. assert (P : 0 < 2 ^ s) by (apply Z.pow_pos_nonneg; lia).
  split; [pose proof (Z.div_pos a (2 ^ s)); lia|]. split; [lia|]. rewrite Z.pow_add_r by lia.
  assert (a <= (a / 2 ^ s + 1) * 2 ^ s) by (pose proof (Z.mod_pos_bound a (2 ^ s) P); pose proof (Z.div_mod a (2 ^ s) ltac:(lia)); lia).
  assert (0 < 2 ^ e) by (apply Z.pow_pos_nonneg; lia).
  rewrite (Z.mul_comm (2 ^ e)), Z.mul_assoc. apply Z.mul_le_mono_nonneg_r; lia.
Qed.
Lemma rnd_dn_ok a e : 0 <= a -> 0 <= e -> 0 <= fst (rnd_dn a e) /\ 0 <= snd (rnd_dn a e) /\ fst (rnd_dn a e) * 2 ^ snd (rnd_dn a e) <= a * 2 ^ e.
Proof.
  intros Ha He. unfold rnd_dn. destruct (Z.ltb_spec a (2 ^ 80)) as [H|H]; cbn [fst snd]; [lia|].
  pose proof (shift_nonneg a H) as Hs. set (s := Z.log2 a - 70) in *. assert (P : 0 < 2 ^ s) by (apply Z.pow_pos_nonneg; lia).
  split; [pose proof (Z.div_pos a (2 ^ s)); lia|]. split; [lia|]. rewrite Z.pow_add_r by lia.
  assert (a / 2 ^ s * 2 ^ s <= a) by (pose proof (Z.mul_div_le a (2 ^ s) P); lia).
  assert (0 < 2 ^ e) by (apply Z.pow_pos_nonneg; lia).
  rewrite (Z.mul_comm (2 ^ e)), Z.mul_assoc. apply Z.mul_le_mono_nonneg_r; lia.
Qed.
Lemma sq_le x y : 0 <= x <= y -> x * x <= y * y.
Proof. intros; apply Z.mul_le_mono_nonneg; lia. Qed.
Lemma pow_up_ok x : 0 <= x -> forall p, 0 <= fst (pow_up x p) /\ 0 <= snd (pow_up x p) /\ x ^ Zpos p <= fst (pow_up x p) * 2 ^ snd (pow_up x p).
Proof.
  intros Hx. induction p as [p IH|p IH|].
  - cbn [pow_up]. destruct (pow_up x p) as [a e]. cbn [fst snd] in IH. destruct IH as (H1 & H2 & H3).
    destruct (rnd_up_ok (a * a * x) (2 * e)) as (K1 & K2 & K3); [apply Z.mul_nonneg_nonneg; [apply Z.mul_nonneg_nonneg|]; lia|lia|].
    split; [exact K1|]. split; [exact K2|]. eapply Z.le_trans; [|exact K3].
    replace (2 * e) with (e + e) by lia. rewrite (Z.pow_add_r 2) by lia.
    replace (Zpos (xI p)) with (Zpos p * 2 + 1) by lia. rewrite (Z.pow_add_r x (Zpos p * 2)), (Z.pow_1_r x), (Z.pow_mul_r x), (Z.pow_2_r (x ^ _)), (Z.mul_comm _ x) by lia.
    transitivity (x * ((a * 2 ^ e) * (a * 2 ^ e))); [|apply Z.eq_le_incl; ring]. apply Z.mul_le_mono_nonneg_l; [lia|].
    apply sq_le. split; [apply Z.pow_nonneg; lia|exact H3].
  - cbn [pow_up]. destruct (pow_up x p) as [a e]. cbn [fst snd] in IH. destruct IH as (H1 & H2 & H3).
    destruct (rnd_up_ok (a * a) (2 * e)) as (K1 & K2 & K3); [apply Z.mul_nonneg_nonneg; lia|lia|].
    split; [exact K1|]. split; [exact K2|]. eapply Z.le_trans; [|exact K3].
    replace (2 * e) with (e + e) by lia. rewrite (Z.pow_add_r 2) by lia.
    replace (Zpos (xO p)) with (Zpos p * 2) by lia. rewrite (Z.pow_mul_r x), (Z.pow_2_r (x ^ _)) by lia.
    transitivity ((a * 2 ^ e) * (a * 2 ^ e)); [|apply Z.eq_le_incl; ring].
    apply sq_le. split; [apply Z.pow_nonneg; lia|exact H3].
  - cbn [pow_up fst snd]. rewrite Z.pow_1_r. cbn. lia.
Qed.
Lemma pow_dn_ok x : 0 <= x -> forall p, 0 <= fst (pow_dn x p) /\ 0 <= snd (pow_dn x p) /\ fst (pow_dn x p) * 2 ^ snd (pow_dn x p) <= x ^ Zpos p.
Proof.
  intros Hx. induction p as [p IH|p IH|].
  - cbn [pow_dn]. destruct (pow_dn x p) as [a e]. cbn [fst snd] in IH. destruct IH as (H1 & H2 & H3).
    destruct (rnd_dn_ok (a * a * x) (2 * e)) as (K1 & K2 & K3); [apply Z.mul_nonneg_nonneg; [apply Z.mul_nonneg_nonneg|]; lia|lia|].
    split; [exact K1|]. split; [exact K2|]. eapply Z.le_trans; [exact K3|].
    replace (2 * e) with (e + e) by lia. rewrite (Z.pow_add_r 2) by lia.
    replace (Zpos (xI p)) with (Zpos p * 2 + 1) by lia. rewrite (Z.pow_add_r x (Zpos p * 2)), (Z.pow_1_r x), (Z.pow_mul_r x), (Z.pow_2_r (x ^ _)) by lia.
    transitivity (((a * 2 ^ e) * (a * 2 ^ e)) * x); [apply Z.eq_le_incl; ring|]. apply Z.mul_le_mono_nonneg_r; [lia|].
    apply sq_le. split; [apply Z.mul_nonneg_nonneg; [lia|apply Z.pow_nonneg; lia]|exact H3].
  - cbn [pow_dn]. destruct (pow_dn x p) as [a e]. cbn [fst snd] in IH. destruct IH as (H1 & H2 & H3).
    destruct (rnd_dn_ok (a * a) (2 * e)) as (K1 & K2 & K3); [apply Z.mul_nonneg_nonneg; lia|lia|].
    split; [exact K1|]. split; [exact K2|]. eapply Z.le_trans; [exact K3|].
    replace (2 * e) with (e + e) by lia. rewrite (Z.pow_add_r 2) by lia.
    replace (Zpos (xO p)) with (Zpos p * 2) by lia. rewrite (Z.pow_mul_r x), (Z.pow_2_r (x ^ _)) by lia.
    transitivity ((a * 2 ^ e) * (a * 2 ^ e)); [apply Z.eq_le_incl; ring|].
    apply sq_le. split; [apply Z.mul_nonneg_nonneg; [lia|apply Z.pow_nonneg; lia]|exact H3].
  - cbn [pow_dn fst snd]. rewrite Z.pow_1_r. cbn. lia.
Qed.

(* ------------------------------------------------------------------ *)
(** ** The check *)
Definition hub (chi tp tn : list Z) (tm sg : Z) : Z :=
  zsum (2 * tm + 1) (fun i => znth chi (Z.abs (i - tm)) *
    zsum (2 * tm + 1) (fun j => znth chi (Z.abs (j - tm)) * ubw tp tn ((j - tm) * (sg * (i - tm))))).
Definition gub (chi tp tn : list Z) (tm sg : Z) : Z :=
  zsum (2 * tm + 1) (fun i => znth chi (Z.abs (i - tm)) * ubw tp tn (sg * (i - tm))).
Definition sizes_ok (h g c d : Z) (n2 T : positive) (k : Z) : bool :=
  let '(A, ea) := pow_up h n2 in
  let '(Dd, ed) := pow_up d T in
  let '(Cc, ec) := pow_dn c T in
  A * g * Dd * 2 ^ (Z.max 0 (k + 7 + ea + ed - (60 * (Zpos n2 + 1) + ec))) <=?
  Cc * 2 ^ (Z.max 0 (60 * (Zpos n2 + 1) + ec - (k + 7 + ea + ed))).
Definition check (c d tm : Z) (chi : list Z) (h g : Z) (n2 T : positive) (k : Z) : bool :=
  let tp := up_tab c d (Z.to_nat (tm * tm)) one60 in
  let tn := up_tab d c (Z.to_nat (tm * tm)) one60 in
  let tp1 := up_tab c d (Z.to_nat tm) one60 in
  let tn1 := up_tab d c (Z.to_nat tm) one60 in
  (hub chi tp tn tm 1 <=? h * 65536 ^ 2) && (hub chi tp tn tm (-1) <=? h * 65536 ^ 2) &&
  (gub chi tp1 tn1 tm 1 <=? g * 65536) && (gub chi tp1 tn1 tm (-1) <=? g * 65536) &&
  sizes_ok h g c d n2 T k.

(* ------------------------------------------------------------------ *)
(** ** From the check to the bound *)
Lemma zsum_le n f h : (forall i, 0 <= i < n -> f i <= h i) -> zsum n f <= zsum n h.
Proof. intros H. rewrite <- !lsum_zseq. apply lsum_le. intros i Hi. apply H. now apply in_zseq. Qed.
Lemma sizes_ok_le h g c d n2 T k : 0 <= h -> 0 <= g -> 0 < c -> 0 < d -> 0 <= k -> sizes_ok h g c d n2 T k = true ->
  2 ^ (k + 7) * (h ^ Zpos n2 * g * d ^ Zpos T) <= one60 ^ (Zpos n2 + 1) * c ^ Zpos T.
Proof.
  intros Hh Hg Hc Hd Hk. unfold sizes_ok.
  destruct (pow_up_ok h Hh n2) as (A1 & A2 & A3). destruct (pow_up h n2) as [A ea].
  destruct (pow_up_ok d ltac:(lia) T) as (D1 & D2 & D3). destruct (pow_up d T) as [Dd ed].
  destruct (pow_dn_ok c ltac:(lia) T) as (C1 & C2 & C3). destruct (pow_dn c T) as [Cc ec]. cbn [fst snd] in *.
  intros H. apply Z.leb_le in H. set (e1 := k + 7 + ea + ed) in *. set (e2 := 60 * (Zpos n2 + 1) + ec) in *.
  assert (K : A * g * Dd * 2 ^ e1 <= Cc * 2 ^ e2).
  { assert (0 <= e1) by lia. assert (0 <= e2) by lia.
    set (m := Z.min e1 e2). assert (P : 0 < 2 ^ m) by (apply Z.pow_pos_nonneg; lia).
    assert (E1 : 2 ^ e1 = 2 ^ m * 2 ^ Z.max 0 (e1 - e2)) by (rewrite <- Z.pow_add_r by lia; f_equal; lia).
    assert (E2 : 2 ^ e2 = 2 ^ m * 2 ^ Z.max 0 (e2 - e1)) by (rewrite <- Z.pow_add_r by lia; f_equal; lia).
    rewrite E1, E2. rewrite !(Z.mul_comm (2 ^ m)), !Z.mul_assoc. apply Z.mul_le_mono_nonneg_r; [lia|exact H]. }
  assert (P1 : 0 <= h ^ Zpos n2) by (apply Z.pow_nonneg; lia). assert (P2 : 0 <= d ^ Zpos T) by (apply Z.pow_nonneg; lia).
  assert (P3 : 0 < 2 ^ (k + 7)) by (apply Z.pow_pos_nonneg; lia).
  transitivity (2 ^ (k + 7) * (A * 2 ^ ea * g * (Dd * 2 ^ ed))).
  { apply Z.mul_le_mono_nonneg_l; [lia|]. apply Z.mul_le_mono_nonneg; [apply Z.mul_nonneg_nonneg; lia| |lia|exact D3].
    apply Z.mul_le_mono_nonneg_r; [lia|exact A3]. }
  transitivity (A * g * Dd * 2 ^ e1).
  { apply Z.eq_le_incl. unfold e1. rewrite !Z.pow_add_r with (a := 2) by lia. ring. }
  eapply Z.le_trans; [exact K|]. unfold e2, one60. rewrite <- Z.pow_mul_r by lia. rewrite Z.pow_add_r by lia.
  rewrite (Z.mul_comm (2 ^ (60 * _))), Z.mul_assoc, (Z.mul_comm _ (c ^ _)). apply Z.mul_le_mono_nonneg_r; [apply Z.pow_nonneg; lia|exact C3].
Qed.
(** The arithmetic of the last step, with everything abstract. *)
Lemma scaled_pow a b x y n : 0 <= n -> 0 <= a -> 0 < x -> a * x <= b * y -> 0 <= b * y -> a ^ n * x ^ n <= b ^ n * y ^ n.
Proof. intros. rewrite <- !Z.pow_mul_l. apply Z.pow_le_mono_l. split; [apply Z.mul_nonneg_nonneg; lia|exact H2]. Qed.

Section Bound.
Variables (c d tm n : Z) (s : Z -> Z) (chi : list Z) (h g : Z) (n2 T : positive) (k : Z).
Hypothesis Hd : 0 < d.
Hypothesis Hc : d <= c.
Hypothesis Htm : 0 <= tm.
Hypothesis Hs : forall w, Z.abs (s w) <= tm.
Hypothesis Hn : 0 < n.
Hypothesis En2 : Zpos n2 = 2 * n.
Hypothesis Hhits : forall v, zsum 65536 (fun w => Z.b2z (s w =? v)) = znth chi (Z.abs v).
Hypothesis Hchi : forall v, 0 <= znth chi v.
Hypothesis Hh : 0 <= h.
Hypothesis Hg : 0 <= g.
Hypothesis Hk : 0 <= k.
Hypothesis HT : Zpos T <= big tm n.
Hypothesis Hcheck : check c d tm chi h g n2 T k = true.

Lemma Gs_values x : Gs c d s tm x = zsum (2 * tm + 1) (fun j => znth chi (Z.abs (j - tm)) * wt c d (tm * tm) ((j - tm) * x)).
Proof.
  unfold Gs. rewrite (wsum_values s (fun y => wt c d (tm * tm) (y * x)) tm Htm Hs). apply zsum_ext. intros j _. now rewrite Hhits.
Qed.
Lemma Hs_bound sg : sg = 1 \/ sg = -1 ->
  Hs_ c d s tm sg * one60 <=
  hub chi (up_tab c d (Z.to_nat (tm * tm)) one60) (up_tab d c (Z.to_nat (tm * tm)) one60) tm sg * (c * d) ^ (tm * tm).
Proof.
  intros Hsg. unfold Hs_, hub.
  rewrite (wsum_values s (fun y => Gs c d s tm (sg * y)) tm Htm Hs), <- !zsum_scale_r. apply zsum_le. intros i Hi.
  rewrite Hhits, <- !Z.mul_assoc. apply Z.mul_le_mono_nonneg_l; [apply Hchi|]. rewrite Gs_values, <- !zsum_scale_r. apply zsum_le. intros j Hj.
  rewrite <- !Z.mul_assoc. apply Z.mul_le_mono_nonneg_l; [apply Hchi|]. apply ubw_ok; [lia|lia|].
  apply abs_mul2; [lia|]. destruct Hsg as [-> | ->]; lia.
Qed.
Lemma G1_bound sg : sg = 1 \/ sg = -1 ->
  G1 c d s tm sg * one60 <= gub chi (up_tab c d (Z.to_nat tm) one60) (up_tab d c (Z.to_nat tm) one60) tm sg * (c * d) ^ tm.
Proof.
  intros Hsg. unfold G1, gub.
  rewrite (wsum_values s (fun y => wt c d tm (sg * y)) tm Htm Hs), <- !zsum_scale_r. apply zsum_le. intros i Hi.
  rewrite Hhits, <- !Z.mul_assoc. apply Z.mul_le_mono_nonneg_l; [apply Hchi|]. apply ubw_ok; [lia|lia|].
  destruct Hsg as [-> | ->]; lia.
Qed.
Lemma wsum_nonneg f : (forall w, 0 <= f w) -> 0 <= wsum f.
Proof.
  intros H. rewrite wsum_words, <- (zsum_zero 65536). apply zsum_le. intros; apply H.
Qed.
Lemma Hs_nonneg sg : sg = 1 \/ sg = -1 -> 0 <= Hs_ c d s tm sg /\ 0 <= G1 c d s tm sg.
Proof.
  intros Hsg. split; [unfold Hs_; apply wsum_nonneg; intros w; unfold Gs; apply wsum_nonneg; intros w'|unfold G1; apply wsum_nonneg; intros w];
    apply Z.lt_le_incl, wt_pos; try lia.
  - apply abs_mul2; [apply Hs|]. pose proof (Hs w). destruct Hsg as [-> | ->]; lia.
  - pose proof (Hs w). destruct Hsg as [-> | ->]; lia.
Qed.
Lemma numeric sg : sg = 1 \/ sg = -1 ->
  2 ^ (k + 7) * (Hs_ c d s tm sg ^ n * Hs_ c d s tm (- sg) ^ n * G1 c d s tm sg) <= wt c d (big tm n) (Zpos T) * 65536 ^ (4 * n + 1).
Proof.
  intros Hsg.
  assert (C4 : forall sg, sg = 1 \/ sg = -1 ->
    Hs_ c d s tm sg * one60 <= h * ((c * d) ^ (tm * tm) * 65536 ^ 2) /\ G1 c d s tm sg * one60 <= g * ((c * d) ^ tm * 65536)).
  { intros x Hx. pose proof (Hs_bound x Hx) as B1. pose proof (G1_bound x Hx) as B2. unfold check in Hcheck. rewrite !andb_true_iff, !Z.leb_le in Hcheck.
    destruct Hcheck as ((((K1 & K2) & K3) & K4) & _).
    assert (0 < (c * d) ^ (tm * tm)) by (apply Z.pow_pos_nonneg; [apply Z.mul_pos_pos; lia|lia]).
    assert (0 < (c * d) ^ tm) by (apply Z.pow_pos_nonneg; [apply Z.mul_pos_pos; lia|lia]).
    split.
    - eapply Z.le_trans; [exact B1|]. rewrite (Z.mul_comm ((c * d) ^ _)), Z.mul_assoc. apply Z.mul_le_mono_nonneg_r; [lia|]. destruct Hx as [-> | ->]; assumption.
    - eapply Z.le_trans; [exact B2|]. rewrite (Z.mul_comm ((c * d) ^ _)), Z.mul_assoc. apply Z.mul_le_mono_nonneg_r; [lia|]. destruct Hx as [-> | ->]; assumption. }
  destruct (C4 sg Hsg) as (U1 & U3). destruct (C4 (- sg)) as (U2 & _); [destruct Hsg as [-> | ->]; auto|].
  destruct (Hs_nonneg sg Hsg) as (N1 & N3). destruct (Hs_nonneg (- sg)) as (N2 & _); [destruct Hsg as [-> | ->]; auto|].
  assert (SZ : 2 ^ (k + 7) * (h ^ Zpos n2 * g * d ^ Zpos T) <= one60 ^ (Zpos n2 + 1) * c ^ Zpos T).
  { apply sizes_ok_le; try lia. unfold check in Hcheck. rewrite !andb_true_iff in Hcheck. apply Hcheck. }
  clear C4 Hcheck. rewrite En2 in SZ.
  assert (EW : wt c d (big tm n) (Zpos T) * d ^ Zpos T = c ^ Zpos T * (c * d) ^ big tm n).
  { unfold wt. rewrite Z.pow_mul_l. rewrite <- Z.mul_assoc, <- Z.pow_add_r by lia.
    replace (big tm n - Zpos T + Zpos T) with (big tm n) by lia. rewrite Z.pow_add_r by lia. ring. }
  set (Q := one60) in *. assert (PQ : 0 < Q) by reflexivity.
  set (K := (c * d) ^ (tm * tm) * 65536 ^ 2) in *. set (K1 := (c * d) ^ tm * 65536) in *.
  assert (PK : 0 < K) by (apply Z.mul_pos_pos; [apply Z.pow_pos_nonneg; [apply Z.mul_pos_pos; lia|lia]|reflexivity]).
  assert (PK1 : 0 < K1) by (apply Z.mul_pos_pos; [apply Z.pow_pos_nonneg; [apply Z.mul_pos_pos; lia|lia]|reflexivity]).
  assert (EK : K ^ n * K ^ n * K1 = (c * d) ^ big tm n * 65536 ^ (4 * n + 1)).
  { unfold K, K1, big. rewrite !Z.pow_mul_l with (c := n). rewrite <- !Z.pow_mul_r by lia.
    rewrite !Z.pow_add_r with (a := c * d) by lia. replace (4 * n + 1) with (2 * n + 2 * n + 1) by lia.
    rewrite !Z.pow_add_r with (a := 65536) by lia. rewrite Z.pow_1_r. rewrite (Z.mul_comm n (tm * tm)).
    generalize ((c * d) ^ (tm * tm * n)) ((c * d) ^ tm) (65536 ^ (2 * n)). intros; ring. }
  set (H1 := Hs_ c d s tm sg) in *. set (H2 := Hs_ c d s tm (- sg)) in *. set (G := G1 c d s tm sg) in *.
  clearbody Q K K1 H1 H2 G. clear Hhits Hchi Hs.
  pose proof (scaled_pow H1 h Q K n ltac:(lia) N1 PQ U1 ltac:(apply Z.mul_nonneg_nonneg; lia)) as V1.
  pose proof (scaled_pow H2 h Q K n ltac:(lia) N2 PQ U2 ltac:(apply Z.mul_nonneg_nonneg; lia)) as V2.
  assert (P1 : 0 <= H1 ^ n) by (apply Z.pow_nonneg; lia). assert (P2 : 0 <= H2 ^ n) by (apply Z.pow_nonneg; lia).
  assert (PQn : 0 < Q ^ n) by (apply Z.pow_pos_nonneg; lia).
  assert (PKn : 0 < K ^ n) by (apply Z.pow_pos_nonneg; lia).
  assert (Phn : 0 <= h ^ n) by (apply Z.pow_nonneg; lia).
  assert (V : H1 ^ n * H2 ^ n * G * (Q ^ n * Q ^ n * Q) <= h ^ n * h ^ n * g * (K ^ n * K ^ n * K1)).
  { transitivity ((H1 ^ n * Q ^ n) * (H2 ^ n * Q ^ n) * (G * Q)); [apply Z.eq_le_incl; ring|].
    transitivity ((h ^ n * K ^ n) * (h ^ n * K ^ n) * (g * K1)); [|apply Z.eq_le_incl; ring].
    apply Z.mul_le_mono_nonneg; [| |apply Z.mul_nonneg_nonneg; lia|exact U3].
    - apply Z.mul_nonneg_nonneg; apply Z.mul_nonneg_nonneg; lia.
    - apply Z.mul_le_mono_nonneg; try assumption; apply Z.mul_nonneg_nonneg; lia. }
  rewrite EK in V.
  replace (h ^ (2 * n)) with (h ^ n * h ^ n) in SZ by (rewrite <- Z.pow_add_r by lia; f_equal; lia).
  replace (Q ^ (2 * n + 1)) with (Q ^ n * Q ^ n * Q) in SZ by (rewrite !Z.pow_add_r, Z.pow_1_r by lia; replace (2 * n) with (n + n) by lia; rewrite Z.pow_add_r by lia; ring).
  assert (PdT : 0 < d ^ Zpos T) by (apply Z.pow_pos_nonneg; lia).
  assert (PQ3 : 0 < Q ^ n * Q ^ n * Q) by (apply Z.mul_pos_pos; [apply Z.mul_pos_pos|]; lia).
  assert (PW : 0 < 65536 ^ (4 * n + 1)) by (apply Z.pow_pos_nonneg; lia).
  assert (PB : 0 < (c * d) ^ big tm n) by (apply Z.pow_pos_nonneg; [apply Z.mul_pos_pos; lia|lia]).
  assert (P27 : 0 < 2 ^ (k + 7)) by (apply Z.pow_pos_nonneg; lia).
  set (R := H1 ^ n * H2 ^ n * G) in *. set (q3 := Q ^ n * Q ^ n * Q) in *. set (h3 := h ^ n * h ^ n * g) in *.
  set (dT := d ^ Zpos T) in *. set (cT := c ^ Zpos T) in *. set (W := 65536 ^ (4 * n + 1)) in *. set (B := (c * d) ^ big tm n) in *. set (w := wt c d (big tm n) (Zpos T)) in *.
  set (p := 2 ^ (k + 7)) in *. clearbody R q3 h3 dT cT W B w p.
  apply (Z.mul_le_mono_pos_r _ _ (q3 * dT)); [apply Z.mul_pos_pos; assumption|].
  transitivity (p * dT * (R * q3)); [apply Z.eq_le_incl; ring|].
  transitivity (p * dT * (h3 * (B * W))); [apply Z.mul_le_mono_nonneg_l; [apply Z.mul_nonneg_nonneg; lia|exact V]|].
  transitivity (p * (h3 * dT) * (B * W)); [apply Z.eq_le_incl; ring|].
  transitivity (q3 * cT * (B * W)); [apply Z.mul_le_mono_nonneg_r; [apply Z.mul_nonneg_nonneg; lia|exact SZ]|].
  transitivity (q3 * (cT * B) * W); [apply Z.eq_le_incl; ring|]. rewrite <- EW. apply Z.eq_le_incl; ring.
Qed.
(** At most one pair of strings in 2^(k+7) makes entry t reach T (or -T). *)
Lemma tail_bound t sg : 0 <= t < 64 -> sg = 1 \/ sg = -1 ->
  count (fun rr => Zpos T <=? sg * entry s n (fst rr) (snd rr) t) (list_prod (strs (16 * n)) (strs (16 * n + 64))) * 2 ^ (k + 7)
    <= 65536 ^ (32 * n + 64).
Proof.
  intros Ht Hsg. pose proof (tail c d Hd Hc s tm n Htm Hs Hn t sg Ht Hsg (Zpos T) ltac:(lia)) as K.
  pose proof (numeric sg Hsg) as N. set (cnt := count _ _) in *.
  assert (PW : 0 < wt c d (big tm n) (Zpos T) * 65536 ^ (4 * n + 1)).
  { apply Z.mul_pos_pos; [apply wt_pos; lia|apply Z.pow_pos_nonneg; lia]. }
  assert (PN : 0 < 65536 ^ (32 * n + 64)) by (apply Z.pow_pos_nonneg; lia).
  assert (P27 : 0 < 2 ^ (k + 7)) by (apply Z.pow_pos_nonneg; lia).
  set (w := wt c d (big tm n) (Zpos T) * 65536 ^ (4 * n + 1)) in *. set (NN := 65536 ^ (32 * n + 64)) in *. set (p := 2 ^ (k + 7)) in *.
  set (R := Hs_ c d s tm sg ^ n * Hs_ c d s tm (- sg) ^ n * G1 c d s tm sg) in *. clearbody cnt w NN p R.
  apply (Z.mul_le_mono_pos_r _ _ w PW).
  transitivity (p * (cnt * w)); [apply Z.eq_le_incl; ring|].
  transitivity (p * (NN * R)); [apply Z.mul_le_mono_nonneg_l; lia|].
  transitivity (NN * (p * R)); [apply Z.eq_le_incl; ring|]. apply Z.mul_le_mono_nonneg_l; lia.
Qed.
(** Some entry, either side. *)
Lemma union_bound (bad : list Z * list Z -> bool) :
  (forall r r', bad (r, r') = true -> exists t, 0 <= t < 64 /\ (Zpos T <= entry s n r r' t \/ entry s n r r' t <= - Zpos T)) ->
  count bad (list_prod (strs (16 * n)) (strs (16 * n + 64))) * 2 ^ k <= 65536 ^ (32 * n + 64).
Proof.
  intros Hbad. set (L := list_prod _ _).
  pose (f := fun t sg (rr : list Z * list Z) => Z.b2z (Zpos T <=? sg * entry s n (fst rr) (snd rr) t)).
  assert (U : count bad L <= zsum 64 (fun t => lsum (f t 1) L + lsum (f t (-1)) L)).
  { rewrite count_lsum. transitivity (lsum (fun rr => zsum 64 (fun t => f t 1 rr + f t (-1) rr)) L).
    - apply lsum_le. intros [r r'] _. destruct (bad (r, r')) eqn:E; cbn [Z.b2z].
      + destruct (Hbad r r' E) as (t & Ht & Hx).
        assert (F : forall x, 0 <= f x 1 (r, r') + f x (-1) (r, r')) by (intros x; unfold f; destruct (_ <=? _), (_ <=? _); cbn; lia).
        replace 64 with (t + (1 + (63 - t))) by lia. rewrite !zsum_split by lia. rewrite zsum_1, Z.add_0_r.
        assert (0 <= zsum t (fun t => f t 1 (r, r') + f t (-1) (r, r'))) by (rewrite <- (zsum_zero t); apply zsum_le; intros; apply F).
        match goal with |- _ <= _ + (_ + ?z) => assert (0 <= z) by (rewrite <- (zsum_zero (63 - t)); apply zsum_le; intros; apply F) end.
        assert (1 <= f t 1 (r, r') + f t (-1) (r, r')); [|lia].
        unfold f. cbn [fst snd]. destruct (Z.leb_spec (Zpos T) (1 * entry s n r r' t)); destruct (Z.leb_spec (Zpos T) (-1 * entry s n r r' t)); cbn [Z.b2z]; lia.
      + rewrite <- (zsum_zero 64). apply zsum_le. intros t _. unfold f. destruct (_ <=? _), (_ <=? _); cbn; lia.
    - rewrite lsum_zsum. apply Z.eq_le_incl. apply zsum_ext. intros t _. apply lsum_add. }
  assert (V : forall t sg, 0 <= t < 64 -> sg = 1 \/ sg = -1 -> lsum (f t sg) L * 2 ^ (k + 7) <= 65536 ^ (32 * n + 64)).
  { intros t sg Ht Hsg. pose proof (tail_bound t sg Ht Hsg) as K. rewrite count_lsum in K. exact K. }
  assert (W : zsum 64 (fun t => lsum (f t 1) L + lsum (f t (-1)) L) * 2 ^ (k + 7) <= zsum 64 (fun _ => 2 * 65536 ^ (32 * n + 64))).
  { rewrite <- zsum_scale_r. apply zsum_le. intros t Ht. rewrite Z.mul_add_distr_r.
    pose proof (V t 1 Ht ltac:(now left)). pose proof (V t (-1) Ht ltac:(now right)). lia. }
  rewrite zsum_scale_r with (n := 64) (c := 65536 ^ (32 * n + 64)) (f := fun _ => 2) in W. change (zsum 64 (fun _ => 2)) with 128 in W.
  assert (P : 0 < 2 ^ (k + 7)) by (apply Z.pow_pos_nonneg; lia).
  pose proof (Z.mul_le_mono_nonneg_r _ _ (2 ^ (k + 7)) ltac:(lia) U) as X.
  rewrite Z.pow_add_r in W, X by lia. change (2 ^ 7) with 128 in *.
  generalize dependent (65536 ^ (32 * n + 64)). generalize dependent (2 ^ k). intros. lia.
Qed.
End Bound.
