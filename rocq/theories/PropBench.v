(** C52: the figures that the benchmark prints, when it ends, and what it measures. *)
From Verif Require Import CSem Params UtilProofs KeccakProofs FrodoSpec FrodoFacts Kem KemProofs KemWp PropMatrix PropKem TestKem PropTest PropRandom Bench.
From Verif Require KatProofs.
Open Scope Z_scope.

(** ** Specification *)
(** Sum, arithmetic mean and population variance (the square of the population standard deviation). *)
Definition qsum (l : list Q) : Q := fold_right Qplus 0%Q l.
Definition mean (l : list Q) : Q := (qsum l / inject_Z (zlen l))%Q.
Definition variance (l : list Q) : Q := mean (map (fun x => (x - mean l) * (x - mean l))%Q l).
(** What the clocks say that one run took: microseconds, cycles. *)
Definition elapsed (c : reading) : Z := (c_sec1 c * 1000000 + c_usec1 c) - (c_sec0 c * 1000000 + c_usec0 c).
Definition cycles (c : reading) : Z := c_tsc1 c - c_tsc0 c.
Definition zsuml (l : list Z) : Z := fold_right Z.add 0 l.
(** [op] run n times, the first time after k other calls. *)
Inductive runs {A} (op : Z -> A -> res A) : Z -> nat -> A -> A -> Prop :=
| runs_0 k a : runs op k 0 a a
| runs_S k n a a1 a2 : returns (op k a) a1 -> runs op (k + 1) n a1 a2 -> runs op k (Datatypes.S n) a a2.

(** ** The running mean and variance *)
Lemma qsum_nil : qsum [] = 0%Q. Proof. reflexivity. Qed.
Lemma qsum_cons x l : qsum (x :: l) = (x + qsum l)%Q. Proof. reflexivity. Qed.
Lemma qsum_one x : (qsum [x] == x)%Q. Proof. rewrite qsum_cons, qsum_nil. ring. Qed.
Lemma qsum_app l m : (qsum (l ++ m) == qsum l + qsum m)%Q.
Proof. induction l as [|x l IH]; cbn [app]; [rewrite qsum_nil; ring|]. rewrite !qsum_cons, IH. ring. Qed.
Lemma qsum_sq c l : (qsum (map (fun x => (x - c) * (x - c)) l) == qsum (map (fun x => x * x) l) - inject_Z 2 * c * qsum l + inject_Z (zlen l) * c * c)%Q.
Proof.
  induction l as [|x l IH]; [cbn; ring|]. cbn [map]. rewrite !qsum_cons, IH, zlen_cons.
  replace (1 + zlen l) with (zlen l + 1) by lia. rewrite inject_Z_plus. change (inject_Z 1) with 1%Q. change (inject_Z 2) with (1 + 1)%Q. ring.
Qed.
Lemma inject_nz n : 0 < n -> ~ (inject_Z n == 0)%Q.
Proof. intros H E. unfold Qeq in E; cbn in E. lia. Qed.
Definition sqdev (l : list Q) : Q := qsum (map (fun x => ((x - mean l) * (x - mean l))%Q) l).
Lemma welford l x m M n : (m == mean l)%Q -> (M == sqdev l)%Q -> n = zlen l + 1 ->
  let m' := (m + (x - m) / inject_Z n)%Q in
  (m' == mean (l ++ [x]))%Q /\ (M + (x - m) * (x - m') == sqdev (l ++ [x]))%Q.
Proof.
  intros Em EM -> m'.
  pose proof (zlen_nonneg l) as Hl.
  assert (N1 : ~ (inject_Z (zlen l + 1) == 0)%Q) by (apply inject_nz; lia).
  assert (EL : zlen (l ++ [x]) = zlen l + 1) by (rewrite zlen_app; reflexivity).
  assert (E1 : (m' == mean (l ++ [x]))%Q).
  { unfold m', mean in *. rewrite EL, qsum_app, qsum_one, Em.
    destruct (Z.eq_dec (zlen l) 0) as [E|E].
    - assert (l = []) by (destruct l as [|y l']; [reflexivity|rewrite zlen_cons in E; pose proof (zlen_nonneg l'); lia]). subst l.
      assert (Z0 : (qsum [] / inject_Z (zlen (@nil Q)) == 0)%Q) by reflexivity. rewrite Z0, qsum_nil. change (inject_Z (zlen (@nil Q) + 1)) with 1%Q. field.
    - assert (N0 : ~ (inject_Z (zlen l) == 0)%Q) by (apply inject_nz; lia).
      rewrite inject_Z_plus in *. field. split; assumption. }
  split; [exact E1|]. unfold sqdev in *. rewrite EM.
  rewrite (qsum_sq (mean (l ++ [x]))), (qsum_sq (mean l)), map_app, !qsum_app, EL. rewrite E1, Em. cbn [map]. rewrite !qsum_one.
  set (S2 := qsum (map (fun x0 => (x0 * x0)%Q) l)).
  destruct (Z.eq_dec (zlen l) 0) as [E|E].
  - assert (l = []) by (destruct l as [|y l']; [reflexivity|rewrite zlen_cons in E; pose proof (zlen_nonneg l'); lia]). subst l.
    assert (Z0 : (mean [] == 0)%Q) by reflexivity. assert (Z1 : (mean ([] ++ [x]) == x)%Q) by (unfold mean; cbn [app]; rewrite qsum_one; change (inject_Z (zlen [x])) with 1%Q; field).
    rewrite Z0, Z1, qsum_nil. change S2 with 0%Q. change (inject_Z (zlen (@nil Q) + 1)) with 1%Q. change (inject_Z (zlen (@nil Q))) with 0%Q. change (inject_Z 2) with (1 + 1)%Q. ring.
  - assert (N0 : ~ (inject_Z (zlen l) == 0)%Q) by (apply inject_nz; lia).
    unfold mean. rewrite EL, qsum_app, qsum_one. rewrite inject_Z_plus in *. change (inject_Z 2) with (1 + 1)%Q. change (inject_Z 1) with 1%Q in *.
    field. split; assumption.
Qed.

(** ** The timer *)
Lemma zsuml_app l m : zsuml (l ++ m) = zsuml l + zsuml m.
Proof. induction l as [|x l IH]; cbn [app zsuml fold_right]; [reflexivity|]. fold (zsuml (l ++ m)) (zsuml l). lia. Qed.
Lemma zsuml_one x : zsuml [x] = x. Proof. cbn; lia. Qed.
(** The timer after the readings [us]. *)
Definition stat (T : target) (us : list reading) (t : timer) : Prop :=
  b_n t = zlen us /\ b_cum t = u64 (zsuml (map (cycles_diff T) us)) /\ b_tcum t = zsuml (map elapsed us) /\
  (b_cmean t == mean (map inject_Z (map (cycles_diff T) us)))%Q /\ (b_cM2 t == sqdev (map inject_Z (map (cycles_diff T) us)))%Q /\
  (b_tmean t == mean (map inject_Z (map elapsed us)))%Q /\ (b_tM2 t == sqdev (map inject_Z (map elapsed us)))%Q.
Lemma stat_init T : stat T [] init_timer.
Proof. repeat split. Qed.
Lemma long_inv W x v : returns (long W x) v -> v = x.
Proof. unfold long. destruct (_ && _); intros H; [symmetry; apply ret_inv, H|destruct H as (t & H); discriminate H]. Qed.
Lemma usecs_inv W s u v : returns (usecs W s u) v -> v = s * 1000000 + u.
Proof. unfold usecs; intros H. apply bind_inv in H. destruct H as (x & H1 & H2). apply long_inv in H1, H2. lia. Qed.
Lemma stop_stat W T c t t' us : returns (stop_timer W T c t) t' -> stat T us t -> stat T (us ++ [c]) t'.
Proof.
  unfold stop_timer. intros H (En & Ec & Et & E1 & E2 & E3 & E4).
  apply bind_inv in H. destruct H as (e & He & H). apply usecs_inv in He.
  apply bind_inv in H. destruct H as (s & Hs & H). apply usecs_inv in Hs.
  apply bind_inv in H. destruct H as (x & Hx & H). apply long_inv in Hx. apply ret_inv in H. subst t'.
  assert (Ex : x = elapsed c) by (unfold elapsed; lia). subst x. rewrite Ex. clear e s He Hs Ex.
  unfold stat; cbn [b_n b_cum b_cmean b_cM2 b_tmean b_tM2 b_tcum]. rewrite !map_app. cbn [map]. rewrite !zsuml_app, !zsuml_one, zlen_app.
  change (zlen [c]) with 1. rewrite Ec, Et.
  split; [lia|]. split; [unfold u64; rewrite Zplus_mod_idemp_l; reflexivity|]. split; [reflexivity|].
  destruct (welford _ (inject_Z (cycles_diff T c)) (b_cmean t) (b_cM2 t) (b_n t + 1) E1 E2) as (F1 & F2); [rewrite !zlen_map; lia|].
  destruct (welford _ (inject_Z (elapsed c)) (b_tmean t) (b_tM2 t) (b_n t + 1) E3 E4) as (F3 & F4); [rewrite !zlen_map; lia|].
  auto.
Qed.
Lemma to_u64_inv x v : returns (to_u64 x) v -> v = x /\ 0 <= x.
Proof.
  unfold to_u64. destruct (Z.leb_spec 0 x); cbn [andb]; [|intros (t & H'); discriminate H'].
  destruct (_ <? _); intros H'; [apply ret_inv in H'; auto|destruct H' as (t & H'); discriminate H'].
Qed.
Lemma time_loop_inv {A} W T (op : Z -> A -> res A) goal : forall cl k t a a' t' k' rest us,
  returns (time_loop W T op goal cl k t a) (a', t', k', rest) -> stat T us t ->
  exists used, cl = used ++ rest /\ runs op k (length used) a a' /\ k' = k + zlen used /\ stat T (us ++ used) t' /\
    goal <= zsuml (map elapsed (us ++ used)) /\
    forall i, (i < length used)%nat -> 0 <= zsuml (map elapsed (us ++ firstn i used)) < goal.
Proof.
  induction cl as [|c cl IH]; intros k t a a' t' k' rest us H Hs; cbn [time_loop] in H;
    apply bind_inv in H; destruct H as (x & Hx & H); apply to_u64_inv in Hx; destruct Hx as (-> & Hx);
    pose proof (proj1 (proj2 (proj2 Hs))) as Et.
  - destruct (Z.ltb_spec (b_tcum t) goal); [destruct H as (? & H); discriminate H|]. apply ret_inv in H.
    assert (E : a = a' /\ t = t' /\ k = k' /\ [] = rest) by (injection H; auto). destruct E as (-> & -> & -> & <-).
    exists []. rewrite !app_nil_r. split; [reflexivity|]. split; [constructor|]. split; [cbn; lia|]. split; [exact Hs|]. split; [lia|]. intros i Hi; cbn in Hi; lia.
  - destruct (Z.ltb_spec (b_tcum t) goal).
    2:{ apply ret_inv in H.
        assert (E : a = a' /\ t = t' /\ k = k' /\ c :: cl = rest) by (injection H; auto). destruct E as (-> & -> & -> & <-).
        exists []. rewrite !app_nil_r. split; [reflexivity|]. split; [constructor|]. split; [cbn; lia|]. split; [exact Hs|]. split; [lia|]. intros i Hi; cbn in Hi; lia. }
    apply bind_inv in H; destruct H as (a1 & H1 & H). apply bind_inv in H; destruct H as (t1 & H2 & H).
    destruct (IH _ _ _ _ _ _ _ _ H (stop_stat _ _ _ _ _ _ H2 Hs)) as (used & -> & R & -> & S & G & Pf).
    exists (c :: used). rewrite <- app_assoc in *. cbn [app] in *.
    split; [reflexivity|]. split; [econstructor; eassumption|]. split; [rewrite zlen_cons; lia|]. split; [exact S|]. split; [exact G|].
    intros [|i] Hi; cbn [firstn length] in *; [rewrite app_nil_r, <- Et; lia|].
    specialize (Pf i ltac:(lia)). rewrite <- app_assoc in Pf. exact Pf.
Qed.
Lemma variance_sqdev l : (variance l == sqdev l / inject_Z (zlen l))%Q.
Proof. unfold variance, mean at 1. rewrite zlen_map. reflexivity. Qed.

(** ** C52: theorems *)
(** The cycles that the program counts: on AMD64 under Unix only the low 32 bits of the counter are read. *)
Definition counted (T : target) (c : reading) : Z :=
  match T with NixAMD64 => cycles c mod 4294967296 | _ => cycles c end.
Definition counter_ok (c : reading) : Prop := 0 <= c_tsc0 c <= c_tsc1 c /\ c_tsc1 c < 9223372036854775808.
Lemma counted_ok T c : counter_ok c -> cycles_diff T c = counted T c.
Proof.
  intros (H1 & H2). unfold cycles_diff, counted, cycles, rdtsc.
  destruct T; cbv zeta.
  - assert (B : forall x, s64 (x mod 4294967296) = x mod 4294967296).
    { intros x. pose proof (Z.mod_pos_bound x 4294967296 ltac:(lia)). unfold s64, u64. rewrite Z.mod_small by lia. destruct (Z.ltb_spec (x mod 4294967296) 9223372036854775808); lia. }
    set (e := c_tsc1 c mod 4294967296). set (s := c_tsc0 c mod 4294967296).
    assert (E : (c_tsc1 c - c_tsc0 c) mod 4294967296 = (e - s) mod 4294967296) by (unfold e, s; rewrite <- Zminus_mod; reflexivity).
    assert (He : 0 <= e < 4294967296) by (apply Z.mod_pos_bound; lia). assert (Hs : 0 <= s < 4294967296) by (apply Z.mod_pos_bound; lia).
    rewrite E, <- B. destruct (Z.ltb_spec e s).
    + unfold u64 at 1. rewrite Z.mod_small by lia. f_equal.
      rewrite <- (Z.mod_small (e + 4294967296 - s) 4294967296) by lia.
      replace (e + 4294967296 - s) with (e - s + 1 * 4294967296) by lia. apply Z_mod_plus_full.
    + f_equal. symmetry; apply Z.mod_small; lia.
  - unfold u64. rewrite !Z.mod_small by lia. destruct (Z.ltb_spec (c_tsc1 c) (c_tsc0 c)); [lia|].
    unfold s64, u64. rewrite Z.mod_small by lia. destruct (Z.ltb_spec (c_tsc1 c - c_tsc0 c) 9223372036854775808); lia.
  - unfold u64. rewrite !Z.mod_small by lia. destruct (Z.ltb_spec (c_tsc1 c) (c_tsc0 c)); [lia|].
    unfold s64, u64. rewrite Z.mod_small by lia. destruct (Z.ltb_spec (c_tsc1 c - c_tsc0 c) 9223372036854775808); lia.
  - unfold u64. rewrite !Z.mod_small by lia. destruct (Z.ltb_spec (c_tsc1 c) (c_tsc0 c)); [lia|].
    unfold s64, u64. rewrite Z.mod_small by lia. destruct (Z.ltb_spec (c_tsc1 c - c_tsc0 c) 9223372036854775808); lia.
Qed.

(** When TIME_OPERATION_SECONDS ends: the operation was run exactly until the clock had shown the wanted time in
    all, the number of runs, the total and the mean are those of the runs, and so is the standard deviation, except
    that it is printed as 0 after exactly two runs. *)
Theorem C52_figures : forall A W T (op : Z -> A -> res A) secs cl k a a' f k' rest,
  0 < secs -> Forall counter_ok cl ->
  returns (time_seconds W T op secs cl k a) (a', f, k', rest) ->
  exists used, cl = used ++ rest /\ runs op k (length used) a a' /\ k' = k + zlen used /\
    let n := zlen used in
    let us := map elapsed used in
    let cs := map (counted T) used in
    1000000 * secs <= zsuml us /\ (forall i, (i < length us)%nat -> 0 <= zsuml (firstn i us) < 1000000 * secs) /\
    0 < n /\ f_n f = n /\ (f_total f == inject_Z (zsuml us) / inject_Z 1000000)%Q /\
    (f_tmean f == mean (map inject_Z us))%Q /\
    (f_tvar f == if n =? 2 then 0 else variance (map inject_Z us))%Q /\
    match f_cycles f with
    | None => T = NixARM
    | Some (m, v) => T <> NixARM /\ (m == inject_Z (zsuml cs mod 18446744073709551616) / inject_Z n)%Q /\
        (v == if n =? 2 then 0 else variance (map inject_Z cs))%Q
    end.
Proof.
  intros A W T op secs cl k a a' f k' rest Hsec Hcl H. unfold time_seconds in H.
  apply bind_inv in H. destruct H as (goal & Hg & H). apply i32_inv in Hg. destruct Hg as (-> & Hg).
  apply bind_inv in H. destruct H as ([[[a1 t] k1] r1] & H & H2). apply ret_inv in H2.
  assert (E : a1 = a' /\ print_timer T t = f /\ k1 = k' /\ r1 = rest) by (injection H2; auto). destruct E as (-> & <- & -> & ->).
  assert (Eg : u64 (1000000 * secs) = 1000000 * secs) by (apply Z.mod_small; lia). rewrite Eg in H.
  destruct (time_loop_inv W T op _ cl k init_timer a a' t k' rest [] H (stat_init T)) as (used & -> & R & -> & S & G & Pf). cbn [app] in *.
  exists used. split; [reflexivity|]. split; [exact R|]. split; [reflexivity|]. cbv zeta.
  assert (EC : map (cycles_diff T) used = map (counted T) used).
  { apply map_ext_in. intros c Hc. apply counted_ok. rewrite Forall_forall in Hcl. apply Hcl, in_or_app; left; exact Hc. }
  destruct S as (En & Ec & Et & E1 & E2 & E3 & E4). rewrite EC in *.
  split; [exact G|]. split; [intros i Hi; rewrite map_length in Hi; specialize (Pf i Hi); rewrite firstn_map; exact Pf|].
  split. { destruct used as [|c used]; [change (zsuml (map elapsed [])) with 0 in G; lia|]. rewrite zlen_cons; pose proof (zlen_nonneg used); lia. }
  unfold print_timer; cbn [f_n f_total f_tmean f_tvar f_cycles]. rewrite En, Et, Ec.
  split; [reflexivity|]. split; [reflexivity|]. split; [exact E3|].
  split. { destruct (zlen used =? 2); [reflexivity|]. rewrite E4, variance_sqdev, !zlen_map; reflexivity. }
  destruct T; try reflexivity; (split; [discriminate|]; split; [reflexivity|]; destruct (zlen used =? 2); [reflexivity|]; rewrite E2, variance_sqdev, !zlen_map; reflexivity).
Qed.
Print Assumptions C52_figures.

(** TIME_OPERATION_ITERATIONS: the operation is run as often as asked for, and the same holds for the figures. *)
Lemma time_for_inv {A} W T (op : Z -> A -> res A) : forall n cl k t a a' t' k' rest us,
  returns (time_for W T op n cl k t a) (a', t', k', rest) -> stat T us t ->
  exists used, cl = used ++ rest /\ length used = n /\ runs op k n a a' /\ k' = k + Z.of_nat n /\ stat T (us ++ used) t'.
Proof.
  induction n as [|n IH]; intros cl k t a a' t' k' rest us H Hs; cbn [time_for] in H.
  - apply ret_inv in H. assert (E : a = a' /\ t = t' /\ k = k' /\ cl = rest) by (injection H; auto). destruct E as (-> & -> & -> & ->).
    exists []. rewrite app_nil_r. split; [reflexivity|]. split; [reflexivity|]. split; [constructor|]. split; [lia|exact Hs].
  - destruct cl as [|c cl]; [destruct H as (? & H); discriminate H|].
    apply bind_inv in H; destruct H as (a1 & H1 & H). apply bind_inv in H; destruct H as (t1 & H2 & H).
    destruct (IH _ _ _ _ _ _ _ _ _ H (stop_stat _ _ _ _ _ _ H2 Hs)) as (used & -> & Ln & R & -> & S).
    exists (c :: used). rewrite <- app_assoc in S. cbn [app length] in *.
    split; [reflexivity|]. split; [lia|]. split; [econstructor; eassumption|]. split; [lia|exact S].
Qed.
Theorem C52_iterations : forall A W T (op : Z -> A -> res A) it cl k a a' f k' rest,
  0 < it -> Forall counter_ok cl ->
  returns (time_iterations W T op it cl k a) (a', f, k', rest) ->
  exists used, cl = used ++ rest /\ zlen used = it /\ runs op k (Z.to_nat it) a a' /\ k' = k + it /\
    let us := map elapsed used in
    let cs := map (counted T) used in
    f_n f = it /\ (f_total f == inject_Z (zsuml us) / inject_Z 1000000)%Q /\
    (f_tmean f == mean (map inject_Z us))%Q /\
    (f_tvar f == if it =? 2 then 0 else variance (map inject_Z us))%Q /\
    match f_cycles f with
    | None => T = NixARM
    | Some (m, v) => T <> NixARM /\ (m == inject_Z (zsuml cs mod 18446744073709551616) / inject_Z it)%Q /\
        (v == if it =? 2 then 0 else variance (map inject_Z cs))%Q
    end.
Proof.
  intros A W T op it cl k a a' f k' rest Hit Hcl H. unfold time_iterations in H.
  apply bind_inv in H. destruct H as ([[[a1 t] k1] r1] & H & H2). apply ret_inv in H2.
  assert (E : a1 = a' /\ print_timer T t = f /\ k1 = k' /\ r1 = rest) by (injection H2; auto). destruct E as (-> & <- & -> & ->).
  destruct (time_for_inv W T op _ cl k init_timer a a' t k' rest [] H (stat_init T)) as (used & -> & Ln & R & -> & S). cbn [app] in *.
  assert (Lu : zlen used = it) by (unfold zlen; lia).
  exists used. split; [reflexivity|]. split; [exact Lu|]. split; [exact R|]. split; [lia|]. cbv zeta.
  assert (EC : map (cycles_diff T) used = map (counted T) used).
  { apply map_ext_in. intros c Hc. apply counted_ok. rewrite Forall_forall in Hcl. apply Hcl, in_or_app; left; exact Hc. }
  destruct S as (En & Ec & Et & E1 & E2 & E3 & E4). rewrite EC in *.
  unfold print_timer; cbn [f_n f_total f_tmean f_tvar f_cycles]. rewrite En, Et, Ec, Lu.
  split; [reflexivity|]. split; [reflexivity|]. split; [exact E3|].
  split. { destruct (it =? 2); [reflexivity|]. rewrite E4, variance_sqdev, !zlen_map, Lu; reflexivity. }
  destruct T; try reflexivity; (split; [discriminate|]; split; [reflexivity|]; destruct (it =? 2); [reflexivity|]; rewrite E2, variance_sqdev, !zlen_map, Lu; reflexivity).
Qed.
Print Assumptions C52_iterations.

(** ** When the loop ends *)
Lemma bind_ok {A B} (m : res A) (f : A -> res B) v w : returns m v -> returns (f v) w -> returns (bind m f) w.
Proof. intros (t & ->) (t' & H). cbn [bind]. rewrite H. eexists; reflexivity. Qed.
Lemma bind_err {A B} (m : res A) (f : A -> res B) v e : returns m v -> f v = Err e -> bind m f = Err e.
Proof. intros (t & ->) H. cbn [bind]. rewrite H. reflexivity. Qed.
Lemma bind_err1 {A B} (m : res A) (f : A -> res B) e : m = Err e -> bind m f = Err e.
Proof. intros ->. reflexivity. Qed.
Lemma returns_ret {A} (a : A) : returns (ret a) a. Proof. eexists; reflexivity. Qed.
Lemma returns_det {A} (m : res A) a b : returns m a -> returns m b -> a = b.
Proof. intros (t & ->) (u & E). injection E; auto. Qed.

(** A time of day between 1970 and the year 36000. *)
Definition date_ok (c : reading) : Prop :=
  0 <= c_sec0 c < 1099511627776 /\ 0 <= c_usec0 c < 1000000 /\ 0 <= c_sec1 c < 1099511627776 /\ 0 <= c_usec1 c < 1000000.
(** From every state of [I] the operation returns to a state of [I]. *)
Definition total {A} (I : A -> Prop) (op : Z -> A -> res A) : Prop := forall k a, I a -> exists a', returns (op k a) a' /\ I a'.

Lemma long_ok x : - 4611686018427387904 <= x < 4611686018427387904 -> returns (long 64 x) x.
Proof.
  intros H. unfold long. change (2 ^ (64 - 1)) with 9223372036854775808.
  replace (- (9223372036854775808) <=? x) with true by (symmetry; apply Z.leb_le; lia). replace (x <? 9223372036854775808) with true by (symmetry; apply Z.ltb_lt; lia). apply returns_ret.
Qed.
Lemma usecs_ok s u : 0 <= s < 1099511627776 -> 0 <= u < 1000000 -> returns (usecs 64 s u) (s * 1000000 + u).
Proof. intros Hs Hu. unfold usecs. eapply bind_ok; [apply long_ok; lia|apply long_ok; lia]. Qed.
Lemma elapsed_bound c : date_ok c -> - 1099511627776000000 < elapsed c < 1099511627776000000.
Proof. intros (? & ? & ? & ?). unfold elapsed. lia. Qed.
Lemma stop_ok T c t : date_ok c -> exists t', returns (stop_timer 64 T c t) t' /\ b_tcum t' = b_tcum t + elapsed c.
Proof.
  intros D. pose proof (elapsed_bound c D) as B. destruct D as (H1 & H2 & H3 & H4). eexists. split.
  - unfold stop_timer. eapply bind_ok; [apply usecs_ok; assumption|]. eapply bind_ok; [apply usecs_ok; assumption|].
    eapply bind_ok; [apply long_ok; unfold elapsed in B; lia|]. apply returns_ret.
  - reflexivity.
Qed.
Lemma to_u64_ok x : 0 <= x < 18446744073709551616 -> returns (to_u64 x) x.
Proof. intros H. unfold to_u64. destruct (Z.leb_spec 0 x); [|lia]. destruct (Z.ltb_spec x 18446744073709551616); [|lia]. apply returns_ret. Qed.
Lemma to_u64_err x : x < 0 -> to_u64 x = Err UB_overflow.
Proof. intros H. unfold to_u64. destruct (Z.leb_spec 0 x); [lia|]. reflexivity. Qed.
Lemma time_loop_ends {A} I T (op : Z -> A -> res A) goal : total I op -> goal < 2147483648 -> forall cl k t a,
  I a -> Forall (fun c => date_ok c /\ 1 <= elapsed c) cl -> 0 <= b_tcum t < 4611686018427387904 -> goal <= b_tcum t + zlen cl ->
  exists r, returns (time_loop 64 T op goal cl k t a) r.
Proof.
  intros Ho Hg. induction cl as [|c cl IH]; intros k t a Ia Hc Ht Hn; cbn [time_loop].
  - cbn in Hn. eexists. eapply bind_ok; [apply to_u64_ok; lia|]. cbv beta. destruct (Z.ltb_spec (b_tcum t) goal); [lia|]. apply returns_ret.
  - inversion Hc as [|? ? (Hd & He) Hc']; subst. destruct (Z.ltb_spec (b_tcum t) goal) as [L|L].
    + destruct (Ho k a Ia) as (a1 & R1 & I1). destruct (stop_ok T c t Hd) as (t1 & R2 & E2). pose proof (elapsed_bound c Hd).
      destruct (IH (k + 1) t1 a1 I1 Hc') as (r & Hr); [lia|rewrite zlen_cons in Hn; lia|].
      exists r. eapply bind_ok; [apply to_u64_ok; lia|]. cbv beta. destruct (Z.ltb_spec (b_tcum t) goal); [|lia].
      eapply bind_ok; [exact R1|]. eapply bind_ok; [exact R2|]. exact Hr.
    + eexists. eapply bind_ok; [apply to_u64_ok; lia|]. cbv beta. destruct (Z.ltb_spec (b_tcum t) goal); [lia|]. apply returns_ret.
Qed.
Lemma i32_ok x : -2147483648 <= x < 2147483648 -> returns (i32 x) x.
Proof. intros H. unfold i32. destruct (Z.leb_spec (-2147483648) x); [|lia]. destruct (Z.ltb_spec x 2147483648); [|lia]. apply returns_ret. Qed.
Lemma goal_ok secs : 0 < secs <= 2147 -> returns (i32 (1000000 * secs)) (1000000 * secs) /\ u64 (1000000 * secs) = 1000000 * secs.
Proof. intros H. split; [apply i32_ok; lia|apply Z.mod_small; lia]. Qed.

(** If the clock shows at least a microsecond for every run, the benchmark of an operation that always returns ends,
    after at most a million runs for every second asked for. *)
Theorem C52_ends : forall A (I : A -> Prop) T (op : Z -> A -> res A) secs cl k a,
  total I op -> I a -> 0 < secs <= 2147 -> Forall (fun c => date_ok c /\ 1 <= elapsed c) cl -> 1000000 * secs <= zlen cl ->
  exists a' f k' rest, returns (time_seconds 64 T op secs cl k a) (a', f, k', rest) /\ zlen cl - zlen rest <= 1000000 * secs.
Proof.
  intros A I T op secs cl k a Ho Ia Hs Hc Hn. destruct (goal_ok secs Hs) as (G1 & G2).
  destruct (time_loop_ends I T op (1000000 * secs) Ho ltac:(lia) cl k init_timer a Ia Hc) as ([[[a' t] k'] rest] & Hr); [change (b_tcum init_timer) with 0; lia|change (b_tcum init_timer) with 0; lia|].
  exists a', (print_timer T t), k', rest. split.
  - unfold time_seconds. eapply bind_ok; [exact G1|]. rewrite G2. eapply bind_ok; [exact Hr|]. apply returns_ret.
  - destruct (time_loop_inv 64 T op _ cl k init_timer a a' t k' rest [] Hr (stat_init T)) as (used & -> & _ & _ & _ & _ & Pf). cbn [app] in Pf.
    rewrite zlen_app. destruct used as [|c used]; [change (zlen (@nil reading)) with 0; lia|].
    specialize (Pf (length used) ltac:(cbn [length]; lia)).
    assert (B : forall l, Forall (fun c => date_ok c /\ 1 <= elapsed c) l -> zlen l <= zsuml (map elapsed l)).
    { induction l as [|x l IH]; intros F; [cbn; lia|]. inversion F as [|? ? (_ & E) F']; subst. rewrite zlen_cons. cbn [map zsuml fold_right]. fold (zsuml (map elapsed l)). specialize (IH F'). lia. }
    assert (F : Forall (fun c => date_ok c /\ 1 <= elapsed c) (firstn (length used) (c :: used))).
    { apply Forall_forall. intros x Hx. rewrite Forall_forall in Hc. apply Hc. apply in_or_app; left. rewrite <- (firstn_skipn (length used) (c :: used)). apply in_or_app; left; exact Hx. }
    specialize (B _ F). assert (L : zlen (firstn (length used) (c :: used)) = zlen used) by (unfold zlen; rewrite firstn_length; cbn [length]; lia).
    rewrite zlen_cons. lia.
Qed.
Print Assumptions C52_ends.

(** Without that it need not end: as long as the clock has not shown the wanted time, and has never gone back behind
    the start, the loop asks for another run - so on a clock that stands still, for ever. *)
Lemma time_loop_goes_on {A} I T (op : Z -> A -> res A) goal : total I op -> goal < 2147483648 -> forall cl k t a more,
  I a -> Forall date_ok cl -> 
  (forall i, (i <= length cl)%nat -> 0 <= b_tcum t + zsuml (map elapsed (firstn i cl)) < goal) ->
  exists k' t' a', I a' /\ b_tcum t' = b_tcum t + zsuml (map elapsed cl) /\
   (forall e, time_loop 64 T op goal more k' t' a' = Err e -> time_loop 64 T op goal (cl ++ more) k t a = Err e).
Proof.
  intros Ho Hg. induction cl as [|c cl IH]; intros k t a more Ia Hc Hp.
  - exists k, t, a. split; [exact Ia|]. split; [cbn; lia|]. intros e H. exact H.
  - inversion Hc as [|? ? Hd Hc']; subst.
    destruct (Ho k a Ia) as (a1 & R1 & I1). destruct (stop_ok T c t Hd) as (t1 & R2 & E2).
    assert (EZ : forall l, zsuml (map elapsed (c :: l)) = elapsed c + zsuml (map elapsed l)) by reflexivity.
    destruct (IH (k + 1) t1 a1 more I1 Hc') as (k' & t' & a' & Ia' & Et & He).
    { intros i Hi. specialize (Hp (Datatypes.S i) ltac:(cbn [length]; lia)). cbn [firstn] in Hp. rewrite EZ in Hp. lia. }
    exists k', t', a'. split; [exact Ia'|]. split; [rewrite EZ; lia|].
    intros e H. specialize (Hp O ltac:(lia)). change (zsuml (map elapsed (firstn 0 (c :: cl)))) with 0 in Hp.
    cbn [app time_loop]. eapply bind_err; [apply to_u64_ok; lia|]. cbv beta. destruct (Z.ltb_spec (b_tcum t) goal); [|lia].
    eapply bind_err; [exact R1|]. eapply bind_err; [exact R2|]. apply He, H.
Qed.
Theorem C52_never : forall A (I : A -> Prop) T (op : Z -> A -> res A) secs cl k a,
  total I op -> I a -> 0 < secs <= 2147 -> Forall date_ok cl ->
  (forall i, (i <= length cl)%nat -> 0 <= zsuml (map elapsed (firstn i cl)) < 1000000 * secs) ->
  time_seconds 64 T op secs cl k a = Err OutOfFuel.
Proof.
  intros A I T op secs cl k a Ho Ia Hs Hc Hp. destruct (goal_ok secs Hs) as (G1 & G2).
  destruct (time_loop_goes_on I T op (1000000 * secs) Ho ltac:(lia) cl k init_timer a [] Ia Hc Hp) as (k' & t' & a' & Ia' & Et & He).
  rewrite app_nil_r in He. unfold time_seconds. eapply bind_err; [exact G1|]. rewrite G2. apply bind_err1. apply He.
  specialize (Hp (length cl) ltac:(lia)). rewrite firstn_all in Hp. change (b_tcum init_timer) with 0 in Et.
  cbn [time_loop]. eapply bind_err; [apply to_u64_ok; lia|]. cbv beta. destruct (Z.ltb_spec (b_tcum t') (1000000 * secs)); [reflexivity|lia].
Qed.
Print Assumptions C52_never.
(** A clock that stands still. *)
Corollary C52_still : forall A (I : A -> Prop) T (op : Z -> A -> res A) secs cl k a,
  total I op -> I a -> 0 < secs <= 2147 -> Forall (fun c => date_ok c /\ elapsed c = 0) cl ->
  time_seconds 64 T op secs cl k a = Err OutOfFuel.
Proof.
  intros A I T op secs cl k a Ho Ia Hs Hc. apply (C52_never A I); try assumption.
  - apply Forall_forall. intros c Hin. rewrite Forall_forall in Hc. apply Hc, Hin.
  - intros i Hi. assert (E : zsuml (map elapsed (firstn i cl)) = 0); [|lia].
    clear Hi. revert i. induction Hc as [|c l (_ & Ec) _ IH]; intros [|i]; try reflexivity.
    cbn [firstn map zsuml fold_right]. fold (zsuml (map elapsed (firstn i l))). rewrite IH. lia.
Qed.
Print Assumptions C52_still.

(** When the clock is set back so far that the measured total becomes negative, the program converts a negative
    double to uint64_t, which is undefined. *)
Theorem C52_backwards_refuted : forall A (I : A -> Prop) T (op : Z -> A -> res A) secs cl c more k a,
  total I op -> I a -> 0 < secs <= 2147 -> Forall date_ok (cl ++ [c]) ->
  (forall i, (i <= length cl)%nat -> 0 <= zsuml (map elapsed (firstn i cl)) < 1000000 * secs) ->
  zsuml (map elapsed (cl ++ [c])) < 0 ->
  time_seconds 64 T op secs (cl ++ c :: more) k a = Err UB_overflow.
Proof.
  intros A I T op secs cl c more k a Ho Ia Hs Hc Hp Hn. destruct (goal_ok secs Hs) as (G1 & G2).
  apply Forall_app in Hc. destruct Hc as (Hc & Hc1). inversion Hc1 as [|? ? Hd _]; subst.
  destruct (time_loop_goes_on I T op (1000000 * secs) Ho ltac:(lia) cl k init_timer a (c :: more) Ia Hc Hp) as (k' & t' & a' & Ia' & Et & He).
  unfold time_seconds. eapply bind_err; [exact G1|]. rewrite G2. apply bind_err1. apply He.
  specialize (Hp (length cl) ltac:(lia)). rewrite firstn_all in Hp. change (b_tcum init_timer) with 0 in Et.
  cbn [time_loop]. eapply bind_err; [apply to_u64_ok; lia|]. cbv beta. destruct (Z.ltb_spec (b_tcum t') (1000000 * secs)); [|lia].
  destruct (Ho k' a' Ia') as (a1 & R1 & I1). destruct (stop_ok T c t' Hd) as (t1 & R2 & E2).
  eapply bind_err; [exact R1|]. eapply bind_err; [exact R2|].
  rewrite map_app, zsuml_app in Hn. change (zsuml (map elapsed [c])) with (elapsed c + 0) in Hn.
  destruct more as [|c' more]; cbn [time_loop]; apply bind_err1, to_u64_err; lia.
Qed.
Print Assumptions C52_backwards_refuted.

(** Where long has 32 bits - Windows, and Unix on 32-bit processors - tv_sec * 1000000 overflows in the first
    measurement, for every date later than 36 minutes after the start of 1970. *)
Theorem C52_long32_refuted : forall A T (op : Z -> A -> res A) secs c cl k a a1,
  0 < secs <= 2147 -> returns (op k a) a1 -> 2148 <= c_sec1 c ->
  time_seconds 32 T op secs (c :: cl) k a = Err UB_overflow.
Proof.
  intros A T op secs c cl k a a1 Hs R1 H. destruct (goal_ok secs Hs) as (G1 & G2).
  unfold time_seconds. eapply bind_err; [exact G1|]. rewrite G2. apply bind_err1. cbn [time_loop].
  eapply bind_err; [apply to_u64_ok; cbn; lia|]. cbv beta. change (b_tcum init_timer) with 0. destruct (Z.ltb_spec 0 (1000000 * secs)); [|lia].
  eapply bind_err; [exact R1|]. apply bind_err1. unfold stop_timer. apply bind_err1. unfold usecs. apply bind_err1. unfold long.
  change (2 ^ (32 - 1)) with 2147483648. destruct (Z.ltb_spec (c_sec1 c * 1000000) 2147483648); [lia|]. rewrite andb_false_r. reflexivity.
Qed.
Print Assumptions C52_long32_refuted.

(** gettimeofday for Windows: the seconds since 1970 and the microseconds, from the 100 ns units since 1601; from 2038 on
    the seconds are off by a multiple of 2^32, as they are kept in 32 bits. *)
Theorem C52_windows_clock : forall sec ms rest,
  0 <= sec < 1000000000000 -> 0 <= ms < 1000 -> 0 <= rest < 10000 ->
  exists t, win_gettimeofday ((11644473600 + sec) * 10000000 + ms * 10000 + rest) ms = (t, 1000 * ms) /\
    -2147483648 <= t < 2147483648 /\ (t - sec) mod 4294967296 = 0 /\ (sec < 2147483648 -> t = sec).
Proof.
  intros sec ms rest Hs Hm Hr. unfold win_gettimeofday.
  replace ((11644473600 + sec) * 10000000 + ms * 10000 + rest - 116444736000000000) with (ms * 10000 + rest + sec * 10000000) by lia.
  unfold u64. rewrite Z.mod_small by lia. rewrite Z.div_add by lia. rewrite (Z.div_small (ms * 10000 + rest)) by lia.
  change (0 + sec) with sec. exists (s32 sec). split; [f_equal; unfold s32; rewrite Z.mod_small by lia; destruct (Z.ltb_spec (ms * 1000) 2147483648); lia|].
  unfold s32. pose proof (Z.mod_pos_bound sec 4294967296 ltac:(lia)) as B. pose proof (Z.div_mod sec 4294967296 ltac:(lia)) as E.
  destruct (Z.ltb_spec (sec mod 4294967296) 2147483648).
  - split; [lia|]. split; [|intros H1; apply Z.mod_small; lia].
    replace (sec mod 4294967296 - sec) with (- (sec / 4294967296) * 4294967296) by lia. apply Z_mod_mult.
  - split; [lia|]. split; [|intros H1; rewrite Z.mod_small in * by lia; lia].
    replace (sec mod 4294967296 - 4294967296 - sec) with ((- (sec / 4294967296) - 1) * 4294967296) by lia. apply Z_mod_mult.
Qed.
Print Assumptions C52_windows_clock.

(** The two departures of the figures from what they are called.  After exactly two runs the deviation printed is 0,
    although the runs took 600000 and 800000 microseconds ... *)
Definition run_of (us tsc : Z) : reading :=
  {| c_sec0 := 1700000000; c_usec0 := 0; c_tsc0 := 5000000000; c_tsc1 := 5000000000 + tsc; c_sec1 := 1700000000; c_usec1 := us |}.
Definition idle (k : Z) (a : unit) : res unit := ret a.
Theorem C52_two_runs_refuted : exists cl f,
  returns (time_seconds 64 NixX86 idle 1 cl 0 tt) (tt, f, 2, []) /\ (f_tvar f == 0)%Q /\
  (variance (map inject_Z (map elapsed cl)) == inject_Z (100000 * 100000))%Q /\ Forall (fun c => counter_ok c /\ date_ok c) cl.
Proof.
  exists [run_of 600000 1000; run_of 800000 1000]. eexists. split; [eexists; vm_compute; reflexivity|]. split; [reflexivity|].
  split; [vm_compute; reflexivity|]. repeat constructor; vm_compute; congruence.
Qed.
Print Assumptions C52_two_runs_refuted.
(** ... and on AMD64 a run of 2^32 cycles and 1000 (a second and a half at 3 GHz) counts as 1000 cycles, where x86 counts all. *)
Theorem C52_cycles_refuted : exists cl f m v f' m' v',
  returns (time_seconds 64 NixAMD64 idle 1 cl 0 tt) (tt, f, 1, []) /\ f_cycles f = Some (m, v) /\ (m == inject_Z 1000)%Q /\
  returns (time_seconds 64 NixX86 idle 1 cl 0 tt) (tt, f', 1, []) /\ f_cycles f' = Some (m', v') /\ (m' == inject_Z 4294968296)%Q /\
  map cycles cl = [4294968296] /\ Forall (fun c => counter_ok c /\ date_ok c) cl.
Proof.
  exists [{| c_sec0 := 1700000000; c_usec0 := 0; c_tsc0 := 5000000000; c_tsc1 := 5000000000 + 4294968296; c_sec1 := 1700000001; c_usec1 := 431656 |}]. do 6 eexists.
  split; [eexists; vm_compute; reflexivity|]. split; [reflexivity|]. split; [vm_compute; reflexivity|].
  split; [eexists; vm_compute; reflexivity|]. split; [reflexivity|]. split; [vm_compute; reflexivity|].
  split; [reflexivity|]. repeat constructor; vm_compute; congruence.
Qed.
Print Assumptions C52_cycles_refuted.
(** Three runs: the hypotheses of C52_figures and its numbers. *)
Example C52_figures_hyps : let cl := [run_of 300000 10; run_of 500000 30; run_of 400000 20; run_of 1 1] in
  exists f, returns (time_seconds 64 NixAMD64 idle 1 cl 0 tt) (tt, f, 3, [run_of 1 1]) /\ Forall counter_ok cl /\
    f_n f = 3 /\ (f_total f == 12 # 10)%Q /\ (f_tmean f == inject_Z 400000)%Q /\ (f_tvar f == inject_Z 20000000000 / inject_Z 3)%Q /\
    (match f_cycles f with Some (m, v) => m == inject_Z 20 /\ v == inject_Z 200 / inject_Z 3 | None => False end)%Q.
Proof.
  eexists. split; [eexists; vm_compute; reflexivity|]. split; [repeat constructor; vm_compute; congruence|].
  repeat split; vm_compute; reflexivity.
Qed.
Example C52_total_hyps : total (fun _ : unit => True) idle /\ date_ok (run_of 600000 1000) /\ elapsed (run_of 600000 1000) = 600000 /\
  elapsed {| c_sec0 := 1700000001; c_usec0 := 5; c_tsc0 := 0; c_tsc1 := 1; c_sec1 := 1700000000; c_usec1 := 4 |} = -1000001.
Proof. split; [intros k a _; exists a; split; [apply returns_ret|exact Logic.I]|]. split; [unfold date_ok; cbn; lia|]. split; reflexivity. Qed.

(** ** What kem_bench measures *)
(** The generator delivers n bytes on every call. *)
Definition source (rb : Z -> generator) : Prop := forall k n, 0 <= n -> exists r rc, bytestr n r /\ delivers (rb k) n r rc.
(** The arrays hold a key pair; an encapsulation against it; the decapsulated secret. *)
Definition has_keys (C : config) (fr : tframe) (PK SK : list Z) (mem : list Z) : Prop :=
  holds mem (t_pk fr) (pkBytes (cP C)) PK /\ holds mem (t_sk fr) (skBytes (cP C)) SK.
Definition made_keys (C : config) (PK SK : list Z) : Prop :=
  exists s seedSE z, bytestr (pCB (cP C)) s /\ bytestr (pCB (cP C)) seedSE /\ bytestr 16 z /\ KeyGen (cP C) (cGen C) s seedSE z = (PK, SK).
Definition has_ct (C : config) (fr : tframe) (CT SS : list Z) (mem : list Z) : Prop :=
  holds mem (t_ct fr) (ctBytes (cP C)) CT /\ holds mem (t_sse fr) (pCB (cP C)) SS.
Definition made_ct (C : config) (PK CT SS : list Z) : Prop :=
  exists mu, bytestr (bytesMu (cP C)) mu /\ Encaps (cP C) (cGen C) PK mu = (CT, SS).

Lemma split3 n l : 0 <= n -> bytestr (2 * n + 16) l ->
  exists a b c, l = a ++ b ++ c /\ bytestr n a /\ bytestr n b /\ bytestr 16 c.
Proof.
  intros Hn (L & B). exists (firstn (Z.to_nat n) l), (firstn (Z.to_nat n) (skipn (Z.to_nat n) l)), (skipn (Z.to_nat n) (skipn (Z.to_nat n) l)).
  split; [rewrite firstn_skipn, firstn_skipn; reflexivity|]. unfold zlen in L.
  assert (Bf : forall k m, bytes_ok m -> bytes_ok (firstn k m)).
  { intros k m H. unfold bytes_ok, inrange in *. rewrite Forall_forall in *. intros x Hx. apply H. rewrite <- (firstn_skipn k m). apply in_or_app; auto. }
  assert (Bs : forall k m, bytes_ok m -> bytes_ok (skipn k m)).
  { intros k m H. unfold bytes_ok, inrange in *. rewrite Forall_forall in *. intros x Hx. apply H. rewrite <- (firstn_skipn k m). apply in_or_app; auto. }
  split; [split; [unfold zlen; rewrite firstn_length; lia|auto]|].
  split; [split; [unfold zlen; rewrite firstn_length, skipn_length; lia|auto]|].
  split; [unfold zlen; rewrite !skipn_length; lia|auto].
Qed.
Section Bench.
Variable C : config.
Hypothesis V : valid (cP C).
Hypothesis Hb : build_ok C.
Variable fr : tframe.
Variable rb : Z -> generator.
Hypothesis Hrb : source rb.
Let P := cP C.
Let g := cGen C.
Lemma tdis : forall mem, tarrays P mem fr ->
  disjoint (t_pk fr) (pkBytes P) (t_sk fr) (skBytes P) /\ disjoint (t_sk fr) (skBytes P) (t_pk fr) (pkBytes P) /\ disjoint (t_ct fr) (ctBytes P) (t_pk fr) (pkBytes P) /\
     disjoint (t_ct fr) (ctBytes P) (t_sk fr) (skBytes P) /\ disjoint (t_sse fr) (pCB P) (t_sk fr) (skBytes P) /\ disjoint (t_sse fr) (pCB P) (t_pk fr) (pkBytes P) /\
     disjoint (t_sse fr) (pCB P) (t_ct fr) (ctBytes P) /\ disjoint (t_ssd fr) (pCB P) (t_sse fr) (pCB P) /\ disjoint (t_ssd fr) (pCB P) (t_pk fr) (pkBytes P) /\
     disjoint (t_ssd fr) (pCB P) (t_sk fr) (skBytes P) /\ disjoint (t_ssd fr) (pCB P) (t_ct fr) (ctBytes P).
Proof.
  intros mem (_ & _ & _ & _ & _ & Ds & _).
  inversion Ds as [|? ? D1 Ds1']; subst. inversion Ds1' as [|? ? D2 Ds2]; subst. inversion Ds2 as [|? ? D3 Ds3]; subst. inversion Ds3 as [|? ? D4 Ds4]; subst.
  rewrite Forall_forall in D1, D2, D3, D4.
  pose proof (D1 (t_sk fr, skBytes P) ltac:(cbn; auto)). pose proof (D1 (t_ct fr, ctBytes P) ltac:(cbn; auto)). pose proof (D1 (t_sse fr, pCB P) ltac:(cbn; auto)). pose proof (D1 (t_ssd fr, pCB P) ltac:(cbn; auto)).
  pose proof (D2 (t_ct fr, ctBytes P) ltac:(cbn; auto)). pose proof (D2 (t_sse fr, pCB P) ltac:(cbn; auto)). pose proof (D2 (t_ssd fr, pCB P) ltac:(cbn; auto)).
  pose proof (D3 (t_sse fr, pCB P) ltac:(cbn; auto)). pose proof (D3 (t_ssd fr, pCB P) ltac:(cbn; auto)). pose proof (D4 (t_ssd fr, pCB P) ltac:(cbn; auto)).
  cbn [fst snd] in *. unfold disjoint in *. lia.
Qed.
Lemma tarrays_len mem m : zlen m = zlen mem -> tarrays P mem fr -> tarrays P m fr.
Proof. intros Lm H. unfold tarrays, region in *. rewrite Lm. exact H. Qed.
Lemma zlen_stored m a x : region m a (zlen x) -> zlen (stored m a x) = zlen m.
Proof. intros (? & ?); apply zlen_zsplice; lia. Qed.
Lemma op_keypair_ok k mem : tarrays P mem fr ->
  exists mem', returns (op_keypair C fr rb k mem) mem' /\ tarrays P mem' fr /\ exists PK SK, made_keys C PK SK /\ has_keys C fr PK SK mem'.
Proof.
  intros TA. destruct (tdis mem TA) as (Dps & Dsp & _). destruct (tsizes C V) as (HCB & Hpk & Hsk & Hct4 & Hmu). fold P in HCB, Hpk, Hsk, Hct4, Hmu.
  pose proof TA as (Rpk & Rsk & _).
  destruct (Hrb k (2 * pCB P + 16) ltac:(lia)) as (r & rc & Br & Dr). destruct (split3 (pCB P) r ltac:(lia) Br) as (s & se & z & -> & Bs & Bse & Bz).
  pose proof (C05_keypair C (rb k) rc mem (t_pk fr) (t_sk fr) s se z V Bs Bse Bz Dr Rpk Rsk Dps) as HK. cbv zeta in HK.
  pose proof (KeyGen_parts P g V s se z (proj1 Bs)) as KP. fold P g in HK.
  destruct (KeyGen P g s se z) as [PK SK] eqn:EK. cbv zeta in KP. destruct KP as (LPK & BPK & LSK & BSK & _). destruct HK as (l & HK).
  assert (L1 : zlen (stored mem (t_pk fr) PK) = zlen mem) by (apply zlen_stored; rewrite LPK; exact Rpk).
  assert (R2 : region (stored mem (t_pk fr) PK) (t_sk fr) (skBytes P)) by (unfold region in *; rewrite L1; exact Rsk).
  assert (L2 : zlen (stored (stored mem (t_pk fr) PK) (t_sk fr) SK) = zlen mem) by (rewrite zlen_stored; [exact L1|rewrite LSK; exact R2]).
  eexists. split; [unfold op_keypair; eapply bind_ok; [exact HK|apply returns_ret]|]. split; [apply (tarrays_len mem); assumption|].
  exists PK, SK. split; [exists s, se, z; auto|]. split.
  - eapply (KatProofs.holds_other _ _ (skBytes P)); [apply KatProofs.holds_same; [exact Rpk|exact LPK|fold P; lia]|exact R2|exact LSK|fold P; lia|fold P; lia|exact Dsp].
  - apply KatProofs.holds_same; [exact R2|exact LSK|fold P; lia].
Qed.
Lemma made_bytes PK SK : made_keys C PK SK -> bytes_ok PK /\ bytes_ok SK.
Proof.
  intros (s & se & z & Bs & Bse & Bz & E). pose proof (KeyGen_parts P g V s se z (proj1 Bs)) as KP. unfold P, g in KP. rewrite E in KP. cbv zeta in KP.
  destruct KP as (_ & BPK & _ & BSK & _). split; [exact BPK|apply BSK, (proj2 Bs)].
Qed.
Lemma op_enc_ok PK SK k mem : made_keys C PK SK -> tarrays P mem fr -> has_keys C fr PK SK mem ->
  exists mem', returns (op_enc C fr rb k mem) mem' /\ (tarrays P mem' fr /\ has_keys C fr PK SK mem') /\ exists CT SS, made_ct C PK CT SS /\ has_ct C fr CT SS mem'.
Proof.
  intros MK TA (Hpk & Hsk). destruct (tdis mem TA) as (Dps & Dsp & Dcp & Dcs & Des & Dep & Dec & _). destruct (tsizes C V) as (HCB & Zpk & Zsk & Hct4 & Hmu). fold P in HCB, Zpk, Zsk, Hct4, Hmu.
  pose proof TA as (Rpk & Rsk & Rct & Rse & _). destruct (made_bytes PK SK MK) as (BPK & BSK).
  destruct (Hrb k (bytesMu P) ltac:(lia)) as (mu & rc & Bmu & Dmu).
  pose proof (C05_enc C (rb k) rc mem (t_ct fr) (t_sse fr) (t_pk fr) PK mu V Hb Bmu Dmu Hpk BPK Rct Rse Dcp) as HE. cbv zeta in HE. fold P g in HE.
  pose proof (Encaps_shape P g V PK mu) as SH. destruct (Encaps P g PK mu) as [CT SS] eqn:EE. destruct SH as (LCT & BCT & LSS & BSS). destruct HE as (l & HE).
  assert (L1 : zlen (stored mem (t_ct fr) CT) = zlen mem) by (apply zlen_stored; rewrite LCT; exact Rct).
  assert (R2 : region (stored mem (t_ct fr) CT) (t_sse fr) (pCB P)) by (unfold region in *; rewrite L1; exact Rse).
  assert (L2 : zlen (stored (stored mem (t_ct fr) CT) (t_sse fr) SS) = zlen mem) by (rewrite zlen_stored; [exact L1|rewrite LSS; exact R2]).
  eexists. split; [unfold op_enc; eapply bind_ok; [exact HE|apply returns_ret]|]. split; [split; [apply (tarrays_len mem); assumption|]|].
  - split.
    + eapply (KatProofs.holds_other _ _ (pCB P)); [|exact R2|exact LSS|fold P; lia|fold P; lia|exact Dep].
      eapply (KatProofs.holds_other _ _ (ctBytes P)); [exact Hpk|exact Rct|exact LCT|fold P; lia|fold P; lia|exact Dcp].
    + eapply (KatProofs.holds_other _ _ (pCB P)); [|exact R2|exact LSS|fold P; lia|fold P; lia|exact Des].
      eapply (KatProofs.holds_other _ _ (ctBytes P)); [exact Hsk|exact Rct|exact LCT|fold P; lia|fold P; lia|exact Dcs].
  - exists CT, SS. split; [exists mu; split; assumption|]. split.
    + eapply (KatProofs.holds_other _ _ (pCB P)); [apply KatProofs.holds_same; [exact Rct|exact LCT|fold P; lia]|exact R2|exact LSS|fold P; lia|fold P; lia|exact Dec].
    + apply KatProofs.holds_same; [exact R2|exact LSS|fold P; lia].
Qed.
Lemma op_dec_ok PK SK CT SS k mem : made_keys C PK SK -> made_ct C PK CT SS -> tarrays P mem fr -> has_keys C fr PK SK mem -> has_ct C fr CT SS mem ->
  exists mem', returns (op_dec C fr k mem) mem' /\ (tarrays P mem' fr /\ has_keys C fr PK SK mem' /\ has_ct C fr CT SS mem') /\
    holds mem' (t_ssd fr) (pCB P) (Decaps P g SK CT).
Proof.
  intros MK (mu & Bmu & EE) TA (Hpk & Hsk) (Hct & Hse). destruct (tdis mem TA) as (_ & _ & _ & _ & _ & _ & _ & Dde & Ddp & Dds & Ddc).
  destruct (tsizes C V) as (HCB & Zpk & Zsk & Hct4 & Hmu). fold P in HCB, Zpk, Zsk, Hct4, Hmu.
  pose proof TA as (Rpk & Rsk & Rct & Rse & Rsd & _ & Hal & _). destruct (made_bytes PK SK MK) as (BPK & BSK).
  pose proof (Encaps_shape P g V PK mu) as SH. unfold P, g in SH. rewrite EE in SH. destruct SH as (LCT & BCT & LSS & BSS).
  destruct (C05_dec C mem (t_ssd fr) (t_ct fr) (t_sk fr) CT SK V Hb Hsk BSK Hal Hct BCT Rsd) as (l & HD). fold P g in HD.
  assert (LD : zlen (Decaps P g SK CT) = pCB P) by (apply (zlen_Decaps C V)).
  eexists. split; [unfold op_dec; eapply bind_ok; [exact HD|apply returns_ret]|].
  assert (O : forall b m y, holds mem b m y -> 0 <= m -> disjoint (t_ssd fr) (pCB P) b m -> holds (stored mem (t_ssd fr) (Decaps P g SK CT)) b m y).
  { intros b m y H1 H2 H3. eapply (KatProofs.holds_other _ _ (pCB P)); [exact H1|exact Rsd|exact LD|lia|exact H2|exact H3]. }
  split; [split; [|split]|].
  - apply (tarrays_len mem); [apply zlen_stored; rewrite LD; exact Rsd|exact TA].
  - split; apply O; try assumption; fold P; lia.
  - split; apply O; try assumption; fold P; lia.
  - apply KatProofs.holds_same; [exact Rsd|exact LD|lia].
Qed.
End Bench.

(** A step that leads from [I] to [I] and establishes [J]: so does a measurement of it. *)
Lemma runs_post {A} (I J : A -> Prop) (op : Z -> A -> res A) : (forall k a, I a -> exists a', returns (op k a) a' /\ I a' /\ J a') ->
  forall k n a a', runs op k n a a' -> I a -> I a' /\ (n <> O -> J a').
Proof.
  intros H k n a a' R. induction R as [k a|k n a a1 a2 R1 R IH]; intros Ia; [split; [exact Ia|congruence]|].
  destruct (H k a Ia) as (x & Rx & Ix & Jx). rewrite (returns_det _ _ _ Rx R1) in *. destruct (IH Ix) as (I2 & J2). split; [exact I2|].
  intros _. destruct n as [|n]; [inversion R; subst; exact Jx|apply J2; discriminate].
Qed.
Lemma time_post {A} (I J : A -> Prop) W T (op : Z -> A -> res A) secs cl k a a' f k' rest : 0 < secs -> (forall k a, I a -> exists a', returns (op k a) a' /\ I a' /\ J a') ->
  returns (time_seconds W T op secs cl k a) (a', f, k', rest) -> I a -> I a' /\ J a'.
Proof.
  intros Hs H R Ia. unfold time_seconds in R.
  apply bind_inv in R. destruct R as (goal & Hg & R). apply i32_inv in Hg. destruct Hg as (-> & Hg).
  apply bind_inv in R. destruct R as ([[[a1 t] k1] r1] & R & H2). apply ret_inv in H2. assert (E : a1 = a') by (injection H2; auto). subst a1.
  destruct (time_loop_inv W T op _ cl k init_timer a a' t k1 r1 [] R (stat_init T)) as (used & _ & Rn & _ & _ & G & _). cbn [app] in G.
  destruct (runs_post I J op H _ _ _ _ Rn Ia) as (Ia' & Ja'). split; [exact Ia'|]. apply Ja'. destruct used as [|c used]; [|discriminate].
  assert (Eg : u64 (1000000 * secs) = 1000000 * secs) by (apply Z.mod_small; lia). rewrite Eg in G. change (zsuml (map elapsed [])) with 0 in G. lia.
Qed.

(** Whatever the clocks show: when kem_bench ends, its arrays hold a key pair that key generation made, a ciphertext
    encapsulated against that key, and the decapsulation of that ciphertext under that key - so what was
    timed as encapsulation and decapsulation ran on matching keys and ciphertexts. *)
Theorem C52_bench : forall W T C fr rb seconds cl k mem mem' fs,
  valid (cP C) -> build_ok C -> source rb -> tarrays (cP C) mem fr -> 0 < seconds ->
  returns (kem_bench W T C fr rb seconds cl k mem) (mem', fs) ->
  exists PK SK CT SS, made_keys C PK SK /\ made_ct C PK CT SS /\
    has_keys C fr PK SK mem' /\ has_ct C fr CT SS mem' /\
    holds mem' (t_ssd fr) (pCB (cP C)) (Decaps (cP C) (cGen C) SK CT).
Proof.
  intros W T C fr rb seconds cl k mem mem' fs V Hb Hrb TA Hs H. unfold kem_bench in H.
  apply bind_inv in H. destruct H as ([[[m1 f1] k1] cl1] & H1 & H).
  apply (time_post (fun m => tarrays (cP C) m fr) (fun _ => True)) in H1; [|exact Hs| |exact TA].
  2:{ intros j m Tm. destruct (op_keypair_ok C V fr rb Hrb j m Tm) as (m' & R & Tm' & _). exists m'; auto. }
  destruct H1 as (T1 & _).
  apply bind_inv in H. destruct H as (m2 & H2 & H). destruct (op_keypair_ok C V fr rb Hrb k1 m1 T1) as (x & Rx & T2 & PK & SK & MK & HK).
  rewrite (returns_det _ _ _ Rx H2) in *.
  apply bind_inv in H. destruct H as ([[[m3 f2] k2] cl2] & H3 & H).
  apply (time_post (fun m => tarrays (cP C) m fr /\ has_keys C fr PK SK m) (fun _ => True)) in H3; [|exact Hs| |split; [exact T2|exact HK]].
  2:{ intros j m (Tm & Km). destruct (op_enc_ok C V Hb fr rb Hrb PK SK j m MK Tm Km) as (m' & R & Tm' & _). exists m'; auto. }
  destruct H3 as ((T3 & K3) & _).
  apply bind_inv in H. destruct H as (m4 & H4 & H). destruct (op_enc_ok C V Hb fr rb Hrb PK SK k2 m3 MK T3 K3) as (y & Ry & (T4 & K4) & CT & SS & MC & HC).
  rewrite (returns_det _ _ _ Ry H4) in *.
  apply bind_inv in H. destruct H as ([[[m5 f3] k3] cl3] & H5 & H).
  apply (time_post (fun m => tarrays (cP C) m fr /\ has_keys C fr PK SK m /\ has_ct C fr CT SS m) (fun m => holds m (t_ssd fr) (pCB (cP C)) (Decaps (cP C) (cGen C) SK CT))) in H5;
    [|exact Hs| |split; [exact T4|split; assumption]].
  2:{ intros j m (Tm & Km & Cm). destruct (op_dec_ok C V Hb fr PK SK CT SS j m MK MC Tm Km Cm) as (m' & R & X & Y). exists m'; auto. }
  destruct H5 as ((T5 & K5 & C5) & D5). apply ret_inv in H. assert (E : m5 = mem') by (injection H; auto). subst m5.
  exists PK, SK, CT, SS. auto.
Qed.
Print Assumptions C52_bench.

(** On a 64-bit system whose clock shows at least a microsecond for every run, kem_bench ends, after at most a million
    runs of each operation for every second asked for. *)
Theorem C52_bench_ends : forall T C fr rb seconds cl k mem,
  valid (cP C) -> build_ok C -> source rb -> tarrays (cP C) mem fr -> 0 < seconds <= 2147 ->
  Forall (fun c => date_ok c /\ 1 <= elapsed c) cl -> 3000000 * seconds <= zlen cl ->
  exists r, returns (kem_bench 64 T C fr rb seconds cl k mem) r.
Proof.
  intros T C fr rb seconds cl k mem V Hb Hrb TA Hs Hc Hn.
  assert (Suf : forall W (A : Type) (op : Z -> A -> res A) cl k a r, returns (time_seconds W T op seconds cl k a) r -> Forall (fun c => date_ok c /\ 1 <= elapsed c) cl -> Forall (fun c => date_ok c /\ 1 <= elapsed c) (snd r)).
  { intros W A op cl0 k0 a0 [[[a1 f1] k1] rest] R F. unfold time_seconds in R. apply bind_inv in R. destruct R as (goal & _ & R).
    apply bind_inv in R. destruct R as ([[[a2 t] k2] r2] & R & H2). apply ret_inv in H2. assert (E : r2 = rest) by (injection H2; auto). subst r2.
    destruct (time_loop_inv W T op _ cl0 k0 init_timer a0 a2 t k2 rest [] R (stat_init T)) as (used & -> & _). apply Forall_app in F. apply F. }
  destruct (C52_ends (list Z) (fun m => tarrays (cP C) m fr) T (op_keypair C fr rb) seconds cl k mem) as (m1 & f1 & k1 & cl1 & R1 & N1); try assumption; [|lia|].
  { intros j m Tm. destruct (op_keypair_ok C V fr rb Hrb j m Tm) as (m' & R & Tm' & _). exists m'; auto. }
  assert (T1 : tarrays (cP C) m1 fr).
  { apply (time_post (fun m => tarrays (cP C) m fr) (fun _ => True)) in R1; [apply R1|lia| |exact TA].
    intros j m Tm. destruct (op_keypair_ok C V fr rb Hrb j m Tm) as (m' & R & Tm' & _). exists m'; auto. }
  pose proof (Suf _ _ _ _ _ _ _ R1 Hc) as F1. cbn [snd] in F1.
  destruct (op_keypair_ok C V fr rb Hrb k1 m1 T1) as (m2 & R2 & T2 & PK & SK & MK & HK).
  destruct (C52_ends (list Z) (fun m => tarrays (cP C) m fr /\ has_keys C fr PK SK m) T (op_enc C fr rb) seconds cl1 (k1 + 1) m2) as (m3 & f2 & k2 & cl2 & R3 & N2); try assumption; [|split; assumption|lia|].
  { intros j m (Tm & Km). destruct (op_enc_ok C V Hb fr rb Hrb PK SK j m MK Tm Km) as (m' & R & Tm' & _). exists m'; auto. }
  assert (T3 : tarrays (cP C) m3 fr /\ has_keys C fr PK SK m3).
  { apply (time_post (fun m => tarrays (cP C) m fr /\ has_keys C fr PK SK m) (fun _ => True)) in R3; [apply R3|lia| |split; assumption].
    intros j m (Tm & Km). destruct (op_enc_ok C V Hb fr rb Hrb PK SK j m MK Tm Km) as (m' & R & Tm' & _). exists m'; auto. }
  pose proof (Suf _ _ _ _ _ _ _ R3 F1) as F2. cbn [snd] in F2. destruct T3 as (T3 & K3).
  destruct (op_enc_ok C V Hb fr rb Hrb PK SK k2 m3 MK T3 K3) as (m4 & R4 & (T4 & K4) & CT & SS & MC & HC).
  destruct (C52_ends (list Z) (fun m => tarrays (cP C) m fr /\ has_keys C fr PK SK m /\ has_ct C fr CT SS m) T (op_dec C fr) seconds cl2 (k2 + 1) m4) as (m5 & f3 & k3 & cl3 & R5 & N3); try assumption; [|split; [assumption|split; assumption]|lia|].
  { intros j m (Tm & Km & Cm). destruct (op_dec_ok C V Hb fr PK SK CT SS j m MK MC Tm Km Cm) as (m' & R & X & Y). exists m'; auto. }
  exists (m5, (f1, f2, f3)). unfold kem_bench. eapply bind_ok; [exact R1|]. cbv beta iota. eapply bind_ok; [exact R2|]. cbv beta iota. eapply bind_ok; [exact R3|]. cbv beta iota.
  eapply bind_ok; [exact R4|]. cbv beta iota. eapply bind_ok; [exact R5|]. apply returns_ret.
Qed.
Print Assumptions C52_bench_ends.

(** ** The exit status of the test program *)
(** The program's exit status is 0 or 1, 0 exactly if all hundred rounds of the self test pass; with the argument
    "nobench", or when a round fails, it ends whatever the clocks show. *)
Theorem C52_main : forall W T C fr fr' rb rb' nobench cl mem mem' rs,
  let P := cP C in
  valid P -> build_ok C -> ctBytes P <= 131072 -> tarrays P mem fr -> supplies P rb 0 rs -> zlen rs = 100 ->
  let main := test_main W T C fr fr' rb rb' nobench cl mem mem' in
  (forall v, returns main v -> (v = 0 \/ v = 1) /\ (v = 0 <-> Forall (passes P (cGen C) (cEn C)) rs)) /\
  (nobench = true \/ ~ Forall (passes P (cGen C) (cEn C)) rs -> exists v, returns main v).
Proof.
  intros W T C fr fr' rb rb' nobench cl mem mem' rs P V Hb Hct TA Hsup Hrs main.
  destruct (C39_verdict C fr mem rb rs V Hb Hct TA Hsup) as (ok & R & E). rewrite Hrs in R. unfold main, test_main. split.
  - intros v H. apply bind_inv in H. destruct H as (x & Rx & H). rewrite <- (returns_det _ _ _ R Rx) in H. fold P in E.
    destruct ok; cbn [negb] in H.
    + assert (v = 0); [|subst v; split; [auto|split; [intros _; apply E; reflexivity|reflexivity]]].
      destruct nobench; [apply ret_inv in H; auto|]. apply bind_inv in H. destruct H as ([x1 x2] & _ & H). apply ret_inv in H; auto.
    + apply ret_inv in H. subst v. split; [auto|]. split; [discriminate|]. intros F. apply E in F. discriminate F.
  - intros H. destruct ok.
    + destruct H as [->|H]; [|exfalso; apply H, E; reflexivity]. exists 0. eapply bind_ok; [exact R|apply returns_ret].
    + exists 1. eapply bind_ok; [exact R|apply returns_ret].
Qed.
Print Assumptions C52_main.
Lemma source_counter : source counter.
Proof.
  intros k n Hn. exists (ztab n (fun i => (i + k) mod 256)), 0.
  split; [split; [apply zlen_ztab, Hn|apply inrange_ztab; intros; apply Z.mod_pos_bound; lia]|apply returns_ret].
Qed.
Fixpoint rounds640 (n : nat) (k : Z) : list draws :=
  match n with O => [] | Datatypes.S n => draw640 k :: rounds640 n (k + 3) end.
Lemma supplied_rounds : forall n k, supplies frodo640 counter k (rounds640 n k) /\ zlen (rounds640 n k) = Z.of_nat n.
Proof.
  induction n as [|n IH]; intros k; cbn [rounds640]; [split; [constructor|reflexivity]|].
  destruct (IH (k + 3)) as (H1 & H2). split; [apply supplied640, H1|]. rewrite zlen_cons. lia.
Qed.
(** The hypotheses of the last three theorems, for FrodoKEM-640. *)
Example C52_bench_hyps :
  valid frodo640 /\ build_ok test640 /\ ctBytes frodo640 <= 131072 /\ source counter /\ tarrays frodo640 (uninit 60000) tframe640 /\
  Forall (fun c => date_ok c /\ 1 <= elapsed c) [run_of 3 77; run_of 999999 78] /\ (forall n, Forall (fun c => date_ok c /\ 1 <= elapsed c) (repeat (run_of 3 77) n)) /\
  supplies frodo640 counter 0 (rounds640 100 0) /\ zlen (rounds640 100 0) = 100.
Proof.
  destruct C39_verdict_hyps as (H1 & H2 & H3 & _ & _ & H4 & _). destruct (supplied_rounds 100 0) as (H5 & H6).
  repeat (split; [first [assumption|apply source_counter]|]).
  assert (G : forall u, 1 <= u < 1000000 -> date_ok (run_of u 77) /\ date_ok (run_of u 78) /\ 1 <= elapsed (run_of u 77) /\ 1 <= elapsed (run_of u 78)).
  { intros u Hu. unfold date_ok, elapsed; cbn [run_of c_sec0 c_usec0 c_sec1 c_usec1]. lia. }
  split; [apply Forall_cons; [split; apply G; lia|apply Forall_cons; [split; apply G; lia|apply Forall_nil]]|]. split; [|split; assumption].
  intros n. apply Forall_forall. intros c Hc. apply repeat_spec in Hc. subst c. split; apply G; lia.
Qed.
