(** The record of the hashed rows: it changes nothing, and it is the list of the published algorithm. *)
From Verif Require Import CSem Params Fips202 Fips202x4 Aes AesSpec KeccakSpec MatrixSpec Macrify MatrixProofs
  MatrixProofs2 PropMatrix KemProofs ResidueProofs RowQueries.

Ltac nx := rewrite bind_bind; apply bind_cong; intros.
Ltac fin := rewrite ?bind_ret_l; reflexivity.

Lemma ref_genA_same en g im N seedA :
  ref_genA en g im N seedA = bind (ref_genA_asks en g im N seedA) (fun '(A, _) => ret A).
Proof.
  destruct g; unfold ref_genA_asks; cbv zeta.
  - rewrite bind_bind. rewrite <- (bind_ret_r (ref_genA _ _ _ _ _)) at 1. apply bind_cong; intros A. fin.
  - unfold ref_genA; cbv zeta. rewrite !bind_bind. apply bind_cong; intros sep. rewrite !bind_bind.
    rewrite (for_proj (fun '(A, sep, _) => (A, sep)) 0 N _
               (fun i '(A, sep, qs) => sep <- set_origin en sep (u16 i) ;;
                  A <- shake_row en N A i sep ;; ret (A, sep, qs ++ [ask_row N sep])) (zrep (N * N) 0, sep, [])).
    + rewrite bind_bind. apply bind_cong; intros ((A & s) & q). rewrite !bind_ret_l, bind_bind.
      rewrite <- (bind_ret_r (le_to_host _ _ _)) at 1. apply bind_cong; intros A'. fin.
    + intros i ((A & s) & q). nx. nx. fin.
Qed.
Lemma ref_as_same en g im N out s e seedA :
  ref_as_plus_e en g im N out s e seedA = bind (ref_as_plus_e_asks en g im N out s e seedA) (fun '(o, _) => ret o).
Proof.
  unfold ref_as_plus_e, ref_as_plus_e_asks. rewrite ref_genA_same, !bind_bind.
  apply bind_cong; intros (A & q). rewrite bind_ret_l. nx. rewrite bind_bind.
  rewrite <- (bind_ret_r (for_ _ _ _ _)) at 1. apply bind_cong; intros o. fin.
Qed.
Lemma ref_sa_same en g im N out s e seedA :
  ref_sa_plus_e en g im N out s e seedA = bind (ref_sa_plus_e_asks en g im N out s e seedA) (fun '(o, _) => ret o).
Proof.
  unfold ref_sa_plus_e, ref_sa_plus_e_asks. rewrite ref_genA_same, !bind_bind.
  apply bind_cong; intros (A & q). rewrite bind_ret_l. nx. rewrite bind_bind.
  rewrite <- (bind_ret_r (for_ _ _ _ _)) at 1. apply bind_cong; intros o. fin.
Qed.
Lemma shake_rows_same en N R i A sep :
  shake_rows en N R i A sep = bind (shake_rows_asks en N R i A sep) (fun '(A, sep, _) => ret (A, sep)).
Proof.
  unfold shake_rows, shake_rows_asks.
  rewrite (for_proj (fun '(A, sep, _) => (A, sep)) 0 R _
             (fun q '(A, sep, qs) => sep <- set_origin en sep (i + q) ;;
                A <- shake_row en N A q sep ;; ret (A, sep, qs ++ [ask_row N sep])) (A, sep, [])).
  - apply bind_cong; intros ((A1 & s) & q). reflexivity.
  - intros j ((A1 & s) & q). nx. nx. fin.
Qed.
Lemma as_rows_same en im N i A st :
  as_rows en im N i A st = bind (as_rows_asks en im N i A st) (fun '(A, st, _) => ret (A, st)).
Proof.
  destruct st as [sch tp|sep|s0 s1 s2 s3]; unfold as_rows_asks.
  - rewrite bind_bind. rewrite <- (bind_ret_r (as_rows _ _ _ _ _ _)) at 1. apply bind_cong; intros (A1 & st). fin.
  - unfold as_rows. rewrite shake_rows_same, !bind_bind. apply bind_cong; intros ((A1 & s) & q). fin.
  - unfold as_rows. do 5 nx. fin.
Qed.
Lemma sa_rows_same en im N i A st :
  sa_rows en im N i A st = bind (sa_rows_asks en im N i A st) (fun '(A, st, _) => ret (A, st)).
Proof.
  destruct st as [sch tp|sep|s0 s1 s2 s3]; unfold sa_rows_asks.
  - rewrite bind_bind. rewrite <- (bind_ret_r (sa_rows _ _ _ _ _ _)) at 1. apply bind_cong; intros (A1 & st). fin.
  - unfold sa_rows. rewrite shake_rows_same, !bind_bind. apply bind_cong; intros ((A1 & s) & q). fin.
  - unfold sa_rows. cbv zeta. do 10 nx. fin.
Qed.
Lemma opt_as_same en g im avx N out s e seedA :
  opt_as_plus_e en g im avx N out s e seedA =
  bind (opt_as_plus_e_asks en g im avx N out s e seedA) (fun '(o, _) => ret o).
Proof.
  unfold opt_as_plus_e, opt_as_plus_e_asks; cbv zeta. nx. nx.
  match goal with |- context [for_step 0 N 4 ?b' (?x, ?y, ?z, [])] =>
    rewrite (for_step_proj (fun '(o, a, st, _) => (o, a, st)) 0 N 4 _ b' (x, y, z, [])) end.
  - rewrite !bind_bind. apply bind_cong; intros (((o & a) & st) & q). rewrite bind_ret_l. nx. fin.
  - intros i (((o & a) & st) & q). rewrite as_rows_same, !bind_bind. apply bind_cong; intros ((a1 & st1) & q1).
    rewrite bind_ret_l. nx. nx. fin.
Qed.
Lemma opt_sa_same en g im avx N eb out s e seedA :
  opt_sa_plus_e en g im avx N eb out s e seedA =
  bind (opt_sa_plus_e_asks en g im avx N eb out s e seedA) (fun '(o, e, _) => ret (o, e)).
Proof.
  unfold opt_sa_plus_e, opt_sa_plus_e_asks; cbv zeta. nx.
  match goal with |- context [for_step 0 N 8 ?b' (?x, ?y, ?z, [])] =>
    rewrite (for_step_proj (fun '(o, a, st, _) => (o, a, st)) 0 N 8 _ b' (x, y, z, [])) end.
  - rewrite !bind_bind. apply bind_cong; intros (((o & a) & st) & q). rewrite bind_ret_l. nx. nx. fin.
  - intros i (((o & a) & st) & q). rewrite sa_rows_same, !bind_bind. apply bind_cong; intros ((a1 & st1) & q1).
    rewrite bind_ret_l. nx. fin.
Qed.
Lemma as_plus_e_same C out s e seedA :
  as_plus_e C out s e seedA = bind (as_plus_e_asks C out s e seedA) (fun '(o, _) => ret o).
Proof. unfold as_plus_e, as_plus_e_asks. destruct (cImpl C); [apply ref_as_same|apply opt_as_same..]. Qed.
Lemma sa_plus_e_same C eb out s e seedA :
  sa_plus_e C eb out s e seedA = bind (sa_plus_e_asks C eb out s e seedA) (fun '(o, e, _) => ret (o, e)).
Proof.
  unfold sa_plus_e, sa_plus_e_asks. destruct (cImpl C); [|apply opt_sa_same..].
  rewrite ref_sa_same, !bind_bind. apply bind_cong; intros (o & q). fin.
Qed.

(** The list of the published algorithm: rows lo to hi - 1. *)
Definition row_list (N : Z) (seedA : list Z) (lo hi : Z) : list query :=
  ztab (hi - lo) (fun k => {| q_line := 0; q_rate := 168; q_in := le16 (lo + k) ++ seedA; q_out := 2 * N |}).

Section Rows.
Variables (en : endian) (N : Z) (seedA : list Z).
Hypothesis HN : 0 < N <= 32768.
Hypothesis HN16 : N mod 16 = 0.
Hypothesis Hseed : zlen seedA = 16.
Hypothesis Hseedb : bytes_ok seedA.
Local Notation sep_ok := (sep_ok seedA).
Local Notation rl := (row_list N seedA).

Lemma ask_row_le16 i : ask_row N (le16 i ++ seedA) = {| q_line := 0; q_rate := 168; q_in := le16 i ++ seedA; q_out := 2 * N |}.
Proof. unfold ask_row. f_equal. apply zslice_all_n. rewrite zlen_app, Hseed. reflexivity. Qed.
Lemma row_list_nil i : rl i i = [].
Proof. unfold row_list. rewrite Z.sub_diag. reflexivity. Qed.
Lemma row_list_app a b c : a <= b -> b <= c -> rl a b ++ rl b c = rl a c.
Proof.
  intros H1 H2. unfold row_list. replace (c - a) with ((b - a) + (c - b)) by lia. rewrite ztab_app by lia. f_equal.
  apply ztab_ext; intros. f_equal. f_equal. f_equal. lia.
Qed.
Lemma row_list_snoc a b : a <= b -> rl a b ++ [ask_row N (le16 b ++ seedA)] = rl a (b + 1).
Proof.
  intros H. rewrite <- (row_list_app a b (b + 1)) by lia. f_equal. unfold row_list.
  replace (b + 1 - b) with 1 by lia. rewrite ask_row_le16. unfold ztab. change (zseq 1) with [0]. cbn [map]. now rewrite Z.add_0_r.
Qed.

Ltac po := eapply pc_bind; [apply pc_wp, set_origin_wp; first [exact Hseed|lia|eassumption|apply sep_of_le16]|]; intros ? ->.
Ltac pa := eapply pc_bind; [apply pc_any|]; intros ? _.

Definition gst_for (g : genA) (st : gst) : Prop :=
  match st with
  | GsAES _ _ => g = GenAES
  | GsSHAKE sep => g = GenSHAKE /\ sep_ok sep
  | GsSHAKE4 s0 s1 s2 s3 => g = GenSHAKE /\ sep_ok s0 /\ sep_ok s1 /\ sep_ok s2 /\ sep_ok s3
  end.
Definition rows_for (g : genA) (lo hi : Z) : list query := match g with GenAES => [] | GenSHAKE => rl lo hi end.
Lemma rows_for_app g a b c : a <= b -> b <= c -> rows_for g a b ++ rows_for g b c = rows_for g a c.
Proof. destruct g; [reflexivity|apply row_list_app]. Qed.

Lemma ref_genA_pc g im : pc (ref_genA_asks en g im N seedA) (fun '(_, qs) => qs = rows_for g 0 N).
Proof.
  destruct g; unfold ref_genA_asks; cbv zeta.
  - pa. apply pc_ret; reflexivity.
  - eapply pc_bind; [apply pc_wp, sep_init_wp; exact Hseed|]. intros sep Hs.
    eapply pc_bind.
    + apply (pc_for (fun i '(_, sep, qs) => sep_ok sep /\ qs = rl 0 i)); [lia|split; [exact Hs|now rewrite row_list_nil]|].
      intros i ((A & s) & q) Hi (H1 & ->). unfold u16; rewrite Z.mod_small by lia. po. pa. apply pc_ret.
      split; [apply sep_of_le16|]. apply row_list_snoc; lia.
    + intros ((A & s) & q) (_ & ->). pa. apply pc_ret. reflexivity.
Qed.
Lemma shake_rows_pc R i A sep : 0 <= R -> 0 <= i -> i + R <= N -> sep_ok sep ->
  pc (shake_rows_asks en N R i A sep) (fun '(_, sep, qs) => sep_ok sep /\ qs = rl i (i + R)).
Proof.
  intros HR Hi HiN Hs. unfold shake_rows_asks.
  apply (pc_for (fun q '(_, sep, qs) => sep_ok sep /\ qs = rl i (i + q)));
    [lia|split; [exact Hs|now rewrite Z.add_0_r, row_list_nil]|].
  intros j ((A1 & s) & q) Hj (H1 & ->). po. pa. apply pc_ret.
  split; [apply sep_of_le16|]. rewrite row_list_snoc by lia. f_equal; lia.
Qed.
Lemma four i : rl i (i + 4) = [ask_row N (le16 (i + 0) ++ seedA); ask_row N (le16 (i + 1) ++ seedA);
                               ask_row N (le16 (i + 2) ++ seedA); ask_row N (le16 (i + 3) ++ seedA)].
Proof. rewrite !ask_row_le16. unfold row_list. replace (i + 4 - i) with 4 by lia. reflexivity. Qed.
Lemma as_rows_pc g im i A st : 0 <= i -> i + 4 <= N -> gst_for g st ->
  pc (as_rows_asks en im N i A st) (fun '(_, st, qs) => gst_for g st /\ qs = rows_for g i (i + 4)).
Proof.
  intros Hi HiN Hst. destruct st as [sch tp|sep|s0 s1 s2 s3]; cbn [gst_for] in Hst; unfold as_rows_asks.
  - subst g. eapply pc_bind with (P := fun '(_, st) => gst_for GenAES st).
    + unfold as_rows. pa. pa. apply pc_ret. reflexivity.
    + intros (a & st) H. apply pc_ret. split; [exact H|reflexivity].
  - destruct Hst as (-> & Hs). eapply pc_bind; [apply shake_rows_pc; [lia|lia|lia|exact Hs]|].
    intros ((a & s) & q) (H & ->). apply pc_ret. split; [split; [reflexivity|exact H]|reflexivity].
  - destruct Hst as (-> & H0 & H1 & H2 & H3). po. po. po. po. pa. apply pc_ret.
    split; [cbn; repeat split; apply sep_of_le16|]. cbn [rows_for]. symmetry; apply four.
Qed.
Lemma sa_rows_pc g im i A st : 0 <= i -> i + 8 <= N -> gst_for g st ->
  pc (sa_rows_asks en im N i A st) (fun '(_, st, qs) => gst_for g st /\ qs = rows_for g i (i + 8)).
Proof.
  intros Hi HiN Hst. destruct st as [sch tp|sep|s0 s1 s2 s3]; cbn [gst_for] in Hst; unfold sa_rows_asks.
  - subst g. eapply pc_bind with (P := fun '(_, st) => gst_for GenAES st).
    + unfold sa_rows. pa. pa. apply pc_ret. reflexivity.
    + intros (a & st) H. apply pc_ret. split; [exact H|reflexivity].
  - destruct Hst as (-> & Hs). eapply pc_bind; [apply shake_rows_pc; [lia|lia|lia|exact Hs]|].
    intros ((a & s) & q) (H & ->). apply pc_ret. split; [split; [reflexivity|exact H]|reflexivity].
  - destruct Hst as (-> & H0 & H1 & H2 & H3). po. po. po. po. pa. cbv zeta. po. po. po. po. pa. apply pc_ret.
    split; [cbn; repeat split; apply sep_of_le16|]. cbn [rows_for].
    rewrite <- (row_list_app i (i + 4) (i + 8)) by lia. rewrite four. f_equal.
    replace (i + 8) with (i + 4 + 4) by lia. rewrite four.
    replace (i + 4 + 0) with (i + 4) by lia. replace (i + 4 + 1) with (i + 5) by lia.
    replace (i + 4 + 2) with (i + 6) by lia. replace (i + 4 + 3) with (i + 7) by lia. reflexivity.
Qed.
Lemma as_init_pc g im avx : pc (as_init en g im avx N seedA) (gst_for g).
Proof.
  destruct g; unfold as_init; cbv zeta.
  - pa. pa. apply pc_ret; reflexivity.
  - destruct avx; repeat (eapply pc_bind; [apply pc_wp, sep_init_wp; exact Hseed|]; intros ? ?); apply pc_ret; cbn; auto.
Qed.
Lemma sa_init_pc g im avx : pc (sa_init en g im avx N seedA) (gst_for g).
Proof.
  destruct g; unfold sa_init; cbv zeta.
  - pa. pa. apply pc_ret; reflexivity.
  - destruct avx; repeat (eapply pc_bind; [apply pc_wp, sep_init_wp; exact Hseed|]; intros ? ?); apply pc_ret; cbn; auto.
Qed.
Lemma opt_as_pc g im avx out s e :
  pc (opt_as_plus_e_asks en g im avx N out s e seedA) (fun '(_, qs) => qs = rows_for g 0 N).
Proof.
  unfold opt_as_plus_e_asks; cbv zeta. pa. eapply pc_bind; [apply as_init_pc|]. intros st Hst.
  eapply pc_bind.
  - apply (pc_for_step (fun i '(_, _, st, qs) => gst_for g st /\ qs = rows_for g 0 i) N 4 (N / 4)); [lia|dlia|dlia| |].
    + split; [exact Hst|]. destruct g; [reflexivity|]. cbn [rows_for]. now rewrite row_list_nil.
    + intros i (((o1 & a0) & st1) & q) Hi HiN (H1 & ->).
      eapply pc_bind; [apply as_rows_pc; [lia|lia|exact H1]|]. intros ((a1 & st2) & q1) (H2 & ->).
      pa. pa. apply pc_ret. split; [exact H2|]. apply rows_for_app; lia.
  - intros (((o1 & a0) & st1) & q) (_ & ->). pa. apply pc_ret. reflexivity.
Qed.
Lemma opt_sa_pc g im avx eb out s e :
  pc (opt_sa_plus_e_asks en g im avx N eb out s e seedA) (fun '(_, _, qs) => qs = rows_for g 0 N).
Proof.
  unfold opt_sa_plus_e_asks; cbv zeta. eapply pc_bind; [apply sa_init_pc|]. intros st Hst.
  eapply pc_bind.
  - apply (pc_for_step (fun i '(_, _, st, qs) => gst_for g st /\ qs = rows_for g 0 i) N 8 (N / 8)); [lia|dlia|dlia| |].
    + split; [exact Hst|]. destruct g; [reflexivity|]. cbn [rows_for]. now rewrite row_list_nil.
    + intros i (((o1 & a0) & st1) & q) Hi HiN (H1 & ->).
      eapply pc_bind; [apply sa_rows_pc; [lia|lia|exact H1]|]. intros ((a1 & st2) & q1) (H2 & ->).
      pa. apply pc_ret. split; [exact H2|]. apply rows_for_app; lia.
  - intros (((o1 & a0) & st1) & q) (_ & ->). pa. pa. apply pc_ret. reflexivity.
Qed.
End Rows.

Lemma as_asks_pc C out s e seedA : valid (cP C) -> zlen seedA = 16 ->
  pc (as_plus_e_asks C out s e seedA) (fun '(_, qs) => qs = rows_for (pN (cP C)) seedA (cGen C) 0 (pN (cP C))).
Proof.
  intros V L. pose proof (v_N _ V) as HN; pose proof (v_N16 _ V) as HN16. unfold as_plus_e_asks.
  destruct (cImpl C); [|apply opt_as_pc; auto..]. unfold ref_as_plus_e_asks.
  eapply pc_bind; [apply ref_genA_pc; auto|]. intros (A & q) ->.
  eapply pc_bind; [apply pc_any|]; intros ? _. eapply pc_bind; [apply pc_any|]; intros ? _. apply pc_ret; reflexivity.
Qed.
Lemma sa_asks_pc C eb out s e seedA : valid (cP C) -> zlen seedA = 16 ->
  pc (sa_plus_e_asks C eb out s e seedA) (fun '(_, _, qs) => qs = rows_for (pN (cP C)) seedA (cGen C) 0 (pN (cP C))).
Proof.
  intros V L. pose proof (v_N _ V) as HN; pose proof (v_N16 _ V) as HN16. unfold sa_plus_e_asks.
  destruct (cImpl C); [|apply opt_sa_pc; auto..]. unfold ref_sa_plus_e_asks. rewrite bind_bind.
  eapply pc_bind; [apply ref_genA_pc; auto|]. intros (A & q) ->. rewrite bind_bind.
  eapply pc_bind; [apply pc_any|]; intros ? _. rewrite bind_bind.
  eapply pc_bind; [apply pc_any|]; intros ? _. rewrite bind_ret_l. apply pc_ret; reflexivity.
Qed.

(** A run whose projection returns, returns. *)
