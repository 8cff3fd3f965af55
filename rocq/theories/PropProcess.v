(** Property C43: histories of calls in one process. *)
From Verif Require Import CSem Params FrodoSpec Random PropMatrix Kem KemProofs KemWp FrodoFacts PropKem PropKem2 PropRandom Process.

(** ** What FrodoKEM prescribes for a history *)
(** n bytes from position pos of the stream of the random device. *)
Definition segment (st : Z -> Z) (pos n : Z) : list Z := ztab n (fun i => st (pos + i)).
(** The number of random bytes an action takes. *)
Definition takes (P : params) (a : action) : Z :=
  match a with AKeyPair _ _ => 2 * pCB P + 16 | AEnc _ _ _ => bytesMu P | _ => 0 end.
(** The memory after the action, done when the device is at position pos. *)
Definition effect (P : params) (g : genA) (st : Z -> Z) (a : action) (pos : Z) (mem : list Z) : list Z :=
  match a with
  | AKeyPair pk sk =>
      let '(PK, SK) := KeyGen P g (segment st pos (pCB P)) (segment st (pos + pCB P) (pCB P)) (segment st (pos + 2 * pCB P) 16) in
      stored (stored mem pk PK) sk SK
  | AEnc ct ss pk =>
      let '(CT, SS) := Encaps P g (zslice mem pk (pkBytes P)) (segment st pos (bytesMu P)) in
      stored (stored mem ct CT) ss SS
  | ADec ss ct sk => stored mem ss (Decaps P g (zslice mem sk (skBytes P)) (zslice mem ct (ctBytes P)))
  | AStore a x => stored mem a x
  end.
(** The arguments of the action are in order. *)
Definition fits (P : params) (mem : list Z) (a : action) : Prop :=
  match a with
  | AKeyPair pk sk => region mem pk (pkBytes P) /\ region mem sk (skBytes P) /\ disjoint pk (pkBytes P) sk (skBytes P)
  | AEnc ct ss pk => region mem ct (ctBytes P) /\ region mem ss (pCB P) /\ region mem pk (pkBytes P) /\
      bytes_ok (zslice mem pk (pkBytes P)) /\ disjoint ct (ctBytes P) pk (pkBytes P)
  | ADec ss ct sk => region mem ss (pCB P) /\ region mem ct (ctBytes P) /\ region mem sk (skBytes P) /\
      bytes_ok (zslice mem ct (ctBytes P)) /\ bytes_ok (zslice mem sk (skBytes P)) /\ sk mod 2 = 0
  | AStore a x => region mem a (zlen x)
  end.
Fixpoint history (P : params) (g : genA) (st : Z -> Z) (l : list action) (pos : Z) (mem : list Z) : list Z :=
  match l with [] => mem | a :: l => history P g st l (pos + takes P a) (effect P g st a pos mem) end.
Fixpoint taken (P : params) (l : list action) : Z := match l with [] => 0 | a :: l => takes P a + taken P l end.
(** Every action's arguments are in order when its turn comes. *)
Fixpoint legal (P : params) (g : genA) (st : Z -> Z) (l : list action) (pos : Z) (mem : list Z) : Prop :=
  match l with [] => True | a :: l => fits P mem a /\ legal P g st l (pos + takes P a) (effect P g st a pos mem) end.

(** The number of answers of the system that bring at least one byte. *)
Fixpoint useful (a : list read_answer) : Z :=
  match a with [] => 0 | RErr :: a => useful a | RGive k :: a => (if 0 <? k then 1 else 0) + useful a end.

(** ** randombytes *)
(** Either the code is still waiting for the system or the result satisfies Q. *)
Definition wpo {A} (m : res A) (Q : A -> Prop) : Prop := m = Err OutOfFuel \/ wp m Q.
Lemma wpo_bind {A B} (m : res A) (f : A -> res B) Q : wpo m (fun a => wpo (f a) Q) -> wpo (bind m f) Q.
Proof.
  intros [->|(a & t & -> & [E|(b & t' & E & H)])]; [left; reflexivity| |]; cbn [bind]; rewrite E; [left; reflexivity|].
  right. exists b, (t ++ t'). auto.
Qed.
Lemma wpo_wp {A} (m : res A) Q : wp m Q -> wpo m Q. Proof. right; assumption. Qed.
Lemma wpo_mono {A} (m : res A) (P Q : A -> Prop) : wpo m P -> (forall a, P a -> Q a) -> wpo m Q.
Proof. intros [->|H] HI; [left; reflexivity|right; eapply wp_mono; eauto]. Qed.

Lemma read_retry_wpo st a : forall pos buf count n, good a -> 0 < n -> 0 <= count -> count + n <= zlen buf ->
  wpo (read_retry st a pos buf count n) (fun '(b, r, a', _) => 0 <= r <= n /\ zlen b = zlen buf /\ good a').
Proof.
  induction a as [|[|k] a IH]; intros pos buf count n Hg Hn Hc Hb; cbn [read_retry].
  - left; reflexivity.
  - apply wpo_bind, wpo_wp, wp_emit. apply IH; auto. intros k Hk; apply Hg; right; exact Hk.
  - assert (0 <= k) by (apply Hg; left; reflexivity). apply wpo_wp. apply wp_bind, wp_put; rewrite ?zlen_ztab; try lia.
    apply wp_bind, wp_emit, wp_ret. split; [lia|]. split; [rewrite zlen_zsplice; rewrite ?zlen_ztab; lia|].
    intros j Hj; apply Hg; right; exact Hj.
Qed.
Lemma to_int_small n : 0 <= n < 2 ^ 31 -> to_int n = n.
Proof. intros. unfold to_int. rewrite Z.mod_small by lia. destruct (Z.ltb_spec n 2147483648); lia. Qed.
Lemma random_wpo st s lock buf n : good (os_read s) -> 0 <= n < 2 ^ 31 -> zlen buf = n ->
  wpo (randombytes_nix st s lock buf n) (fun _ => True).
Proof.
  intros Hg Hn L. unfold randombytes_nix. cbv zeta. rewrite to_int_small by exact Hn. apply wpo_bind.
  assert (H : wpo (branch (lock =? -1) (open_retry (os_open s)) (ret (lock, os_open s))) (fun _ => True)).
  { unfold branch. apply wpo_bind, wpo_wp, wp_emit. destruct (lock =? -1); [|apply wpo_wp, wp_ret; exact I].
    generalize (os_open s) as l. induction l as [|fd l IH]; cbn [open_retry]; [left; reflexivity|].
    unfold branch. apply wpo_bind, wpo_wp, wp_emit. destruct (fd =? -1); [exact IH|apply wpo_wp, wp_ret; exact I]. }
  eapply wpo_mono; [exact H|]. intros [lk o] _. apply wpo_bind.
  assert (K : forall fuel buf count m a pos, good a -> zlen buf = n -> 0 <= count -> 0 <= m -> count + m = n ->
    wpo (loop fuel (fun '(buf, count, n, a, pos) =>
      if 0 <? n then
        '(buf, r, a, pos) <- read_retry st a pos buf count n ;;
        count <- i32 (count + r) ;;
        n <- i32 (n - r) ;;
        ret ((buf, count, n, a, pos), true)
      else ret ((buf, count, n, a, pos), false)) (buf, count, m, a, pos)) (fun _ => True)).
  { induction fuel as [|fuel IH]; intros b c m a pos Ga Lb Hc Hm Ec; [left; reflexivity|]. cbn [loop]. apply wpo_bind.
    destruct (Z.ltb_spec 0 m).
    - apply wpo_bind. eapply wpo_mono; [apply read_retry_wpo; auto; lia|].
      intros [[[b' r] a'] p'] (H1 & H2 & H3). apply wpo_bind, wpo_wp, wp_i32; [lia|]. apply wpo_bind, wpo_wp, wp_i32; [lia|].
      apply wpo_wp, wp_ret. apply wpo_bind, wpo_wp, wp_emit. apply IH; auto; lia.
    - apply wpo_wp, wp_ret. apply wpo_bind, wpo_wp, wp_emit. apply wpo_wp, wp_ret. exact I. }
  eapply wpo_mono; [apply K; auto; lia|]. intros [[[[b c] m] a] p] _. apply wpo_wp, wp_ret. exact I.
Qed.
(** It waits, or it delivers the next n bytes. *)
Lemma random_cases st s lock buf n : good (os_read s) -> 0 <= n < 2 ^ 31 -> zlen buf = n ->
  randombytes_nix st s lock buf n = Err OutOfFuel \/
  exists lk s', returns (randombytes_nix st s lock buf n) (segment st (os_pos s) n, 0, lk, s') /\ os_pos s' = os_pos s + n /\ good (os_read s').
Proof.
  intros Hg Hn L. destruct (random_wpo st s lock buf n Hg Hn L) as [E|(v & t & E & _)]; [left; exact E|right].
  destruct v as [[[b rc] lk] s']. assert (R : returns (randombytes_nix st s lock buf n) (b, rc, lk, s')) by (exists t; exact E).
  destruct (C20_whole_buffer _ _ _ _ _ _ _ _ _ Hg Hn L R) as (-> & -> & Ep).
  destruct (C20_exact _ _ _ _ _ _ _ _ _ Hg R) as (_ & _ & _ & _ & Hl & _).
  exists lk, s'. split; [exact R|]. split; [exact Ep|]. eapply good_later; eauto.
Qed.

(** With enough useful answers it delivers; a request of n bytes uses at most n of them. *)
Lemma useful_nonneg a : 0 <= useful a.
Proof. induction a as [|[|k] a IH]; cbn [useful]; [lia|exact IH|destruct (0 <? k); lia]. Qed.
Lemma read_retry_useful st a : forall pos buf count n, good a -> 0 < n -> 0 < useful a -> 0 <= count -> count + n <= zlen buf ->
  wp (read_retry st a pos buf count n) (fun '(b, r, a', _) => 0 <= r <= n /\ zlen b = zlen buf /\ good a' /\ (length a' < length a)%nat /\
      useful a - r <= useful a').
Proof.
  induction a as [|[|k] a IH]; intros pos buf count n Hg Hn Ho Hc Hb; cbn [read_retry useful] in *.
  - lia.
  - apply wp_bind, wp_emit. eapply wp_mono; [apply IH; auto; intros k Hk; apply Hg; right; exact Hk|].
    intros [[[b r] a'] p] (? & ? & ? & ? & ?). cbn [length]. repeat split; auto; lia.
  - assert (0 <= k) by (apply Hg; left; reflexivity). apply wp_bind, wp_put; rewrite ?zlen_ztab; try lia.
    apply wp_bind, wp_emit, wp_ret. split; [lia|]. split; [rewrite zlen_zsplice; rewrite ?zlen_ztab; lia|].
    split; [intros j Hj; apply Hg; right; exact Hj|]. cbn [length]. split; [lia|].
    destruct (Z.ltb_spec 0 k); lia.
Qed.
Lemma random_returns st s lock buf n : good (os_read s) -> (lock = -1 -> exists fd, In fd (os_open s) /\ fd <> -1) ->
  0 <= n < 2 ^ 31 -> zlen buf = n -> n <= useful (os_read s) ->
  exists b rc lk s', returns (randombytes_nix st s lock buf n) (b, rc, lk, s') /\ useful (os_read s) - n <= useful (os_read s').
Proof.
  intros Hg Hop Hn L Ho.
  assert (W : wp (randombytes_nix st s lock buf n) (fun '(_, _, _, s') => useful (os_read s) - n <= useful (os_read s'))).
  { unfold randombytes_nix. cbv zeta. rewrite to_int_small by exact Hn. apply wp_bind.
    apply wp_mono with (P := fun _ => True).
    { apply wp_branch; [|intros _; apply wp_ret; exact I]. intros E%Z.eqb_eq.
      destruct (Hop E) as (fd & Hin & Hfd). clear - Hin Hfd. revert Hin. generalize (os_open s) as l. induction l as [|x l IH]; intros Hin; [destruct Hin|].
      cbn [open_retry]. apply wp_branch; [|intros _; apply wp_ret; exact I]. intros E%Z.eqb_eq. apply IH. destruct Hin; [congruence|assumption]. }
    intros [lk o] _. apply wp_bind.
    apply wp_loop with (I := fun '(b, c, m, a, _) => zlen b = n /\ 0 <= c /\ 0 <= m /\ c + m = n /\ good a /\ m <= useful a /\ useful (os_read s) - c <= useful a)
                       (mu := fun '(_, _, _, a, _) => length a).
    - repeat (split; [first [lia | assumption]|]). lia.
    - cbn. lia.
    - intros [[[[b c] m] a] p] (H1 & H2 & H3 & H4 & H5 & H6 & H7). destruct (Z.ltb_spec 0 m).
      + apply wp_bind. eapply wp_mono; [apply read_retry_useful; auto; lia|].
        intros [[[b' r] a'] p'] (G1 & G2 & G3 & G4 & G5). apply wp_bind, wp_i32; [lia|]. apply wp_bind, wp_i32; [lia|]. apply wp_ret.
        cbv beta iota. split; [|cbn; lia]. repeat (split; [first [lia | assumption]|]). lia.
      + apply wp_ret. cbv beta iota. apply wp_ret. cbn [os_read]. lia. }
  destruct W as ([[[b rc] lk] s'] & t & E & H). exists b, rc, lk, s'. split; [exists t; exact E|exact H].
Qed.

(** ** One action *)
Lemma bind_err {A B} (m : res A) (f : A -> res B) v e : returns m v -> f v = Err e -> bind m f = Err e.
Proof. intros (t & ->) H. cbn [bind]. rewrite H. reflexivity. Qed.
Lemma bind_ok {A B} (m : res A) (f : A -> res B) v w : returns m v -> returns (f v) w -> returns (bind m f) w.
Proof. intros (t & ->) (t' & H). cbn [bind]. rewrite H. eexists; reflexivity. Qed.

Section One.
Variables (C : config) (st : Z -> Z).
Let P := cP C.
Hypothesis V : valid P.
Hypothesis Hb : build_ok C.
Hypothesis Hsize : 2 * pCB P + 16 < 2 ^ 31.
Hypothesis Hst : forall i, 0 <= st i < 256.

Lemma segment_bytes pos n : 0 <= n -> bytestr n (segment st pos n).
Proof. intros Hn. split; [apply zlen_ztab; lia|apply inrange_ztab; intros; apply Hst]. Qed.
Lemma segment_app pos n m : 0 <= n -> 0 <= m -> segment st pos (n + m) = segment st pos n ++ segment st (pos + n) m.
Proof.
  intros Hn Hm. unfold segment. apply list_ext; [rewrite zlen_app, !zlen_ztab; lia|]. rewrite zlen_ztab by lia. intros i Hi. rewrite znth_ztab by lia.
  destruct (Z.lt_ge_cases i n).
  - rewrite znth_app1 by (rewrite zlen_ztab; lia). rewrite znth_ztab by lia. reflexivity.
  - rewrite znth_app2 by (rewrite zlen_ztab; lia). rewrite zlen_ztab, znth_ztab by lia. f_equal; lia.
Qed.
Lemma keypair_err rb e mem pk sk : rb (uninit (2 * pCB P + 16)) (pCB P + pCB P + 16) = Err e -> crypto_kem_keypair C rb mem pk sk = Err e.
Proof. intros H. unfold crypto_kem_keypair. cbv zeta. fold P. unfold SEEDA. rewrite H. reflexivity. Qed.
Lemma enc_err rb e mem ct ss pk : region mem pk (pkBytes P) -> bytes_ok (zslice mem pk (pkBytes P)) ->
  rb (uninit (bytesMu P)) (bytesMu P) = Err e -> crypto_kem_enc C rb mem ct ss pk = Err e.
Proof.
  intros (R1 & R2) B H. unfold crypto_kem_enc. cbv zeta. fold P.
  destruct (sizes C V) as (HN & HD & HB & HCB & ENN & EbB & HDN & EbC & EbMu & Epk & Esk & Ect & Esp & EH). fold P in HN, HD, HB, HCB, ENN, EbB, HDN, EbC, EbMu, Epk, Esk, Ect, Esp, EH.
  rewrite EH.
  assert (L : zlen (zslice mem pk (pkBytes P)) = pkBytes P) by (apply zlen_zslice; lia).
  eapply bind_err; [apply wp_returns, wp_sub; [lia|lia|lia|reflexivity]|].
  eapply bind_err.
  { apply wp_returns. apply (shake_to_mid C V _ [] (uninit (pCB P)) (uninit (bytesMu P))); [symmetry; apply zrep_app; lia|reflexivity|rewrite zlen_uninit; lia|exact B|lia|reflexivity]. }
  cbn [app]. match goal with |- context [Hash ?x ?y ?z] => set (pkh := Hash x y z) end. assert (Lp : zlen pkh = pCB P) by (apply (zlen_Hash C V); lia).
  eapply bind_err; [apply wp_returns, (sub_mid _ pkh (uninit (bytesMu P)) []); [now rewrite app_nil_r|lia|rewrite zlen_uninit; lia|reflexivity]|].
  rewrite H. reflexivity.
Qed.

Lemma act_cases a p : good (os_read (p_os p)) -> fits P (p_mem p) a ->
  act C st a p = Err OutOfFuel \/
  exists p', returns (act C st a p) (0, p') /\ p_mem p' = effect P (cGen C) st a (os_pos (p_os p)) (p_mem p) /\
    os_pos (p_os p') = os_pos (p_os p) + takes P a /\ good (os_read (p_os p')).
Proof.
  intros Hg Hf. destruct (sizes C V) as (HN & HD & HB & HCB & ENN & EbB & HDN & EbC & EbMu & Epk & Esk & Ect & Esp & EH). fold P in HN, HD, HB, HCB, ENN, EbB, HDN, EbC, EbMu, Epk, Esk, Ect, Esp, EH.
  pose proof (v_B8 P V) as HB8.
  destruct a as [pk sk|ct ss pk|ss ct sk|a x]; cbn [act fits effect takes] in *.
  - destruct Hf as (F1 & F2 & F3). fold P. unfold SEEDA.
    destruct (random_cases st (p_os p) (p_lock p) (uninit (2 * pCB P + 16)) (2 * pCB P + 16) Hg ltac:(lia) ltac:(apply zlen_uninit; lia)) as [E|(lk & s' & R & Ep & Hg')].
    + left. rewrite (keypair_err _ OutOfFuel); [reflexivity|]. unfold random_c. replace (pCB P + pCB P + 16) with (2 * pCB P + 16) by lia. rewrite E. reflexivity.
    + right. pose proof (C05_keypair C (random_c st p) 0 (p_mem p) pk sk (segment st (os_pos (p_os p)) (pCB P)) (segment st (os_pos (p_os p) + pCB P) (pCB P)) (segment st (os_pos (p_os p) + 2 * pCB P) 16) V
        (segment_bytes _ (pCB P) ltac:(lia)) (segment_bytes _ (pCB P) ltac:(lia)) (segment_bytes _ 16 ltac:(lia))) as K. fold P in K.
      assert (Dl : delivers (random_c st p) (2 * pCB P + 16) (segment st (os_pos (p_os p)) (pCB P) ++ segment st (os_pos (p_os p) + pCB P) (pCB P) ++ segment st (os_pos (p_os p) + 2 * pCB P) 16) 0).
      { unfold delivers, random_c. eapply bind_ok; [exact R|]. cbv beta iota. exists []. unfold ret. do 2 f_equal.
        replace (2 * pCB P + 16) with (pCB P + (pCB P + 16)) by lia. rewrite !segment_app by lia. do 3 f_equal. lia. }
      specialize (K Dl F1 F2 F3).
      destruct (KeyGen P (cGen C) _ _ _) as [PK SK]. destruct K as (l & K).
      eexists. split.
      * eapply bind_ok; [exact K|]. cbv beta iota. eapply bind_ok; [unfold after_random; eapply bind_ok; [exact R|exists []; reflexivity]|]. cbv beta iota. exists []; reflexivity.
      * cbn [p_mem p_os]. auto.
  - destruct Hf as (F1 & F2 & F3 & F4 & F5). fold P.
    destruct (random_cases st (p_os p) (p_lock p) (uninit (bytesMu P)) (bytesMu P) Hg ltac:(lia) ltac:(apply zlen_uninit; lia)) as [E|(lk & s' & R & Ep & Hg')].
    + left. rewrite (enc_err _ OutOfFuel); [reflexivity|exact F3|exact F4|]. unfold random_c. rewrite E. reflexivity.
    + right. pose proof (C05_enc C (random_c st p) 0 (p_mem p) ct ss pk (zslice (p_mem p) pk (pkBytes P)) (segment st (os_pos (p_os p)) (bytesMu P)) V Hb
        (segment_bytes _ (bytesMu P) ltac:(lia))) as K. fold P in K.
      assert (Dl : delivers (random_c st p) (bytesMu P) (segment st (os_pos (p_os p)) (bytesMu P)) 0).
      { unfold delivers, random_c. eapply bind_ok; [exact R|]. exists []. reflexivity. }
      specialize (K Dl (conj F3 eq_refl) F4 F1 F2 F5).
      destruct (Encaps P (cGen C) _ _) as [CT SS]. destruct K as (l & K).
      eexists. split.
      * eapply bind_ok; [exact K|]. cbv beta iota. eapply bind_ok; [unfold after_random; eapply bind_ok; [exact R|exists []; reflexivity]|]. cbv beta iota. exists []; reflexivity.
      * cbn [p_mem p_os]. auto.
  - destruct Hf as (F1 & F2 & F3 & F4 & F5 & F6). right.
    destruct (C05_dec C (p_mem p) ss ct sk (zslice (p_mem p) ct (ctBytes P)) (zslice (p_mem p) sk (skBytes P)) V Hb (conj F3 eq_refl) F5 F6 (conj F2 eq_refl) F4 F1) as (l & K).
    eexists. split; [eapply bind_ok; [exact K|exists []; reflexivity]|]. cbn [p_mem p_os]. split; [reflexivity|]. split; [lia|exact Hg].
  - right. destruct Hf as (F1 & F2). eexists. split.
    + eapply bind_ok; [apply wp_returns, wp_put; [lia|lia|reflexivity]|exists []; reflexivity].
    + cbn [p_mem p_os]. split; [reflexivity|]. split; [lia|exact Hg].
Qed.
Lemma act_returns a p : good (os_read (p_os p)) -> fits P (p_mem p) a ->
  (p_lock p = -1 -> exists fd, In fd (os_open (p_os p)) /\ fd <> -1) -> takes P a <= useful (os_read (p_os p)) ->
  exists p', returns (act C st a p) (0, p') /\ useful (os_read (p_os p)) - takes P a <= useful (os_read (p_os p')) /\
    (p_lock p' = -1 -> exists fd, In fd (os_open (p_os p')) /\ fd <> -1).
Proof.
  intros Hg Hf Hop Hu. destruct (sizes C V) as (HN & HD & HB & HCB & ENN & EbB & HDN & EbC & EbMu & Epk & Esk & Ect & Esp & EH). fold P in HN, HD, HB, HCB, ENN, EbB, HDN, EbC, EbMu, Epk, Esk, Ect, Esp, EH.
  pose proof (v_B8 P V) as HB8.
  assert (NF : forall n, 0 <= n < 2 ^ 31 -> n <= useful (os_read (p_os p)) ->
    exists b rc lk s', returns (randombytes_nix st (p_os p) (p_lock p) (uninit n) n) (b, rc, lk, s') /\ useful (os_read (p_os p)) - n <= useful (os_read s') /\ lk <> -1).
  { intros n Hn Hun. destruct (random_returns st (p_os p) (p_lock p) (uninit n) n Hg Hop Hn ltac:(apply zlen_uninit; lia) Hun) as (b & rc & lk & s' & R & U).
    destruct (C20_exact _ _ _ _ _ _ _ _ _ Hg R) as (_ & _ & _ & _ & _ & Hlk). exists b, rc, lk, s'. auto. }
  destruct (act_cases a p Hg Hf) as [E|(p' & R & _)].
  - exfalso. destruct a as [pk sk|ct ss pk|ss ct sk|a x]; cbn [act fits effect takes] in *.
    + destruct (NF (2 * pCB P + 16) ltac:(lia) Hu) as (b & rc & lk & s' & R & _).
      destruct Hf as (F1 & F2 & F3).
      destruct (random_cases st (p_os p) (p_lock p) (uninit (2 * pCB P + 16)) (2 * pCB P + 16) Hg ltac:(lia) ltac:(apply zlen_uninit; lia)) as [E2|(lk2 & s2 & R2 & _)];
        [destruct R as (t & R); rewrite R in E2; discriminate|].
      pose proof (C05_keypair C (random_c st p) 0 (p_mem p) pk sk (segment st (os_pos (p_os p)) (pCB P)) (segment st (os_pos (p_os p) + pCB P) (pCB P)) (segment st (os_pos (p_os p) + 2 * pCB P) 16) V
        (segment_bytes _ (pCB P) ltac:(lia)) (segment_bytes _ (pCB P) ltac:(lia)) (segment_bytes _ 16 ltac:(lia))) as K. fold P in K.
      assert (Dl : delivers (random_c st p) (2 * pCB P + 16) (segment st (os_pos (p_os p)) (pCB P) ++ segment st (os_pos (p_os p) + pCB P) (pCB P) ++ segment st (os_pos (p_os p) + 2 * pCB P) 16) 0).
      { unfold delivers, random_c. eapply bind_ok; [exact R2|]. cbv beta iota. exists []. unfold ret. do 2 f_equal.
        replace (2 * pCB P + 16) with (pCB P + (pCB P + 16)) by lia. rewrite !segment_app by lia. do 3 f_equal. lia. }
      specialize (K Dl F1 F2 F3). destruct (KeyGen P (cGen C) _ _ _) as [PK SK]. destruct K as (l & t & K).
      rewrite K in E. cbn [bind] in E. fold P in E. unfold SEEDA, after_random in E. destruct R as (t' & R). rewrite R in E. discriminate.
    + destruct (NF (bytesMu P) ltac:(lia) Hu) as (b & rc & lk & s' & R & _).
      destruct Hf as (F1 & F2 & F3 & F4 & F5).
      destruct (random_cases st (p_os p) (p_lock p) (uninit (bytesMu P)) (bytesMu P) Hg ltac:(lia) ltac:(apply zlen_uninit; lia)) as [E2|(lk2 & s2 & R2 & _)];
        [destruct R as (t & R); rewrite R in E2; discriminate|].
      pose proof (C05_enc C (random_c st p) 0 (p_mem p) ct ss pk (zslice (p_mem p) pk (pkBytes P)) (segment st (os_pos (p_os p)) (bytesMu P)) V Hb
        (segment_bytes _ (bytesMu P) ltac:(lia))) as K. fold P in K.
      assert (Dl : delivers (random_c st p) (bytesMu P) (segment st (os_pos (p_os p)) (bytesMu P)) 0).
      { unfold delivers, random_c. eapply bind_ok; [exact R2|]. exists []. reflexivity. }
      specialize (K Dl (conj F3 eq_refl) F4 F1 F2 F5). destruct (Encaps P (cGen C) _ _) as [CT SS]. destruct K as (l & t & K).
      rewrite K in E. cbn [bind] in E. fold P in E. unfold after_random in E. destruct R as (t' & R). rewrite R in E. discriminate.
    + destruct Hf as (F1 & F2 & F3 & F4 & F5 & F6).
      destruct (C05_dec C (p_mem p) ss ct sk (zslice (p_mem p) ct (ctBytes P)) (zslice (p_mem p) sk (skBytes P)) V Hb (conj F3 eq_refl) F5 F6 (conj F2 eq_refl) F4 F1) as (l & t & K).
      rewrite K in E. discriminate.
    + destruct (put (p_mem p) a x) as [m t|e] eqn:Ep; cbn [bind ret] in E; [discriminate|]. unfold put in Ep.
      destruct ((0 <=? a) && (a + zlen x <=? zlen (p_mem p))); [discriminate|]. injection Ep as <-. discriminate.
  - exists p'. split; [exact R|].
    destruct a as [pk sk|ct ss pk|ss ct sk|a x]; cbn [act fits effect takes] in *.
    + destruct (NF (2 * pCB P + 16) ltac:(lia) Hu) as (b & rc & lk & s' & R1 & U & Hlk).
      apply bind_inv in R. destruct R as ([[m l] c] & _ & R). apply bind_inv in R. destruct R as ([lk2 s2] & R2 & R). apply ret_inv in R. injection R as _ <-.
      unfold after_random in R2. apply bind_inv in R2. destruct R2 as ([[[b2 rc2] lk3] s3] & R2 & R3). apply ret_inv in R3. injection R3 as <- <-.
      fold P in R2. unfold SEEDA in R2. pose proof (returns_inj _ _ _ R1 R2) as E. injection E as _ _ <- <-. cbn [p_os p_lock]. split; [exact U|contradiction].
    + destruct (NF (bytesMu P) ltac:(lia) Hu) as (b & rc & lk & s' & R1 & U & Hlk).
      apply bind_inv in R. destruct R as ([[m l] c] & _ & R). apply bind_inv in R. destruct R as ([lk2 s2] & R2 & R). apply ret_inv in R. injection R as _ <-.
      unfold after_random in R2. apply bind_inv in R2. destruct R2 as ([[[b2 rc2] lk3] s3] & R2 & R3). apply ret_inv in R3. injection R3 as <- <-.
      fold P in R2. pose proof (returns_inj _ _ _ R1 R2) as E. injection E as _ _ <- <-. cbn [p_os p_lock]. split; [exact U|contradiction].
    + apply bind_inv in R. destruct R as ([[m l] c] & _ & R). apply ret_inv in R. injection R as _ <-. cbn [p_os p_lock]. split; [lia|exact Hop].
    + apply bind_inv in R. destruct R as (m & _ & R). apply ret_inv in R. injection R as <-. cbn [p_os p_lock]. split; [lia|exact Hop].
Qed.
End One.

(** ** Any history *)
(** Every sequence of calls of the API and of stores by the caller, for every parameter set and
    every build, every schedule of answers of the system (failed and short reads and opens): either
    the process still waits for the system, or every call has returned 0, the memory is what
    FrodoKEM prescribes for the history, and the device has delivered exactly the bytes taken, each
    to one call. *)
Theorem C43_history : forall C st l p,
  valid (cP C) -> build_ok C -> 2 * pCB (cP C) + 16 < 2 ^ 31 -> (forall i, 0 <= st i < 256) ->
  good (os_read (p_os p)) -> legal (cP C) (cGen C) st l (os_pos (p_os p)) (p_mem p) ->
  acts C st l p = Err OutOfFuel \/
  exists p', returns (acts C st l p) (map (fun _ => 0) l, p') /\
    p_mem p' = history (cP C) (cGen C) st l (os_pos (p_os p)) (p_mem p) /\
    os_pos (p_os p') = os_pos (p_os p) + taken (cP C) l.
Proof.
  intros C st l p V Hb Hs Hst. revert p. induction l as [|a l IH]; intros p Hg Hl; cbn [acts legal history taken map] in *.
  - right. exists p. split; [exists []; reflexivity|]. split; [reflexivity|lia].
  - destruct Hl as (Hf & Hl). destruct (act_cases C st V Hb Hs Hst a p Hg Hf) as [E|(p1 & R & Em & Ep & Hg1)]; [left; rewrite E; reflexivity|].
    rewrite <- Em, <- Ep in Hl. destruct (IH p1 Hg1 Hl) as [E|(p2 & R2 & Em2 & Ep2)].
    + left. eapply bind_err; [exact R|]. cbv beta iota. rewrite E. reflexivity.
    + right. exists p2. split; [eapply bind_ok; [exact R|]; cbv beta iota; eapply bind_ok; [exact R2|exists []; reflexivity]|].
      rewrite Em2, Ep2, Em, Ep. split; [reflexivity|lia].
Qed.
Print Assumptions C43_history.
(** If the device can be opened and the system keeps answering, the process gets to the end. *)
Theorem C43_returns : forall C st l p,
  valid (cP C) -> build_ok C -> 2 * pCB (cP C) + 16 < 2 ^ 31 -> (forall i, 0 <= st i < 256) ->
  good (os_read (p_os p)) -> legal (cP C) (cGen C) st l (os_pos (p_os p)) (p_mem p) ->
  (p_lock p = -1 -> exists fd, In fd (os_open (p_os p)) /\ fd <> -1) -> taken (cP C) l <= useful (os_read (p_os p)) ->
  exists p', returns (acts C st l p) (map (fun _ => 0) l, p').
Proof.
  intros C st l p V Hb Hs Hst. revert p. induction l as [|a l IH]; intros p Hg Hl Ho Hu; cbn [acts legal taken map] in *.
  - exists p. exists []; reflexivity.
  - destruct Hl as (Hf & Hl).
    assert (Ht : 0 <= taken (cP C) l).
    { clear - V. destruct (sizes C V) as (HN & HD & HB & HCB & ENN & EbB & HDN & EbC & EbMu & _). 
      induction l as [|b l IH]; cbn [taken]; [lia|]. destruct b; cbn [takes]; lia. }
    destruct (act_returns C st V Hb Hs Hst a p Hg Hf Ho ltac:(lia)) as (p1 & R & U & Ho1).
    destruct (act_cases C st V Hb Hs Hst a p Hg Hf) as [E|(p1' & R' & Em & Ep & Hg1)]; [destruct R as (t & R); rewrite R in E; discriminate|].
    pose proof (returns_inj _ _ _ R R') as E. injection E as <-.
    rewrite <- Em, <- Ep in Hl. destruct (IH p1 Hg1 Hl Ho1 ltac:(lia)) as (p2 & R2). exists p2.
    eapply bind_ok; [exact R|]; cbv beta iota; eapply bind_ok; [exact R2|exists []; reflexivity].
Qed.
Print Assumptions C43_returns.

(** ** Bytes that no action writes keep their values *)
Definition written (P : params) (a : action) : list (Z * Z) :=
  match a with
  | AKeyPair pk sk => [(pk, pkBytes P); (sk, skBytes P)]
  | AEnc ct ss _ => [(ct, ctBytes P); (ss, pCB P)]
  | ADec ss _ _ => [(ss, pCB P)]
  | AStore a x => [(a, zlen x)]
  end.
Lemma stored_same mem a x i : region mem a (zlen x) -> ~ (a <= i < a + zlen x) -> 0 <= i < zlen mem -> znth (stored mem a x) i = znth mem i.
Proof.
  intros R N Hi. destruct (stored_spec mem a x i R Hi) as (_ & ->).
  destruct (Z.leb_spec a i), (Z.ltb_spec i (a + zlen x)); cbn [andb]; try reflexivity. lia.
Qed.
Lemma stored_len mem a x : region mem a (zlen x) -> zlen (stored mem a x) = zlen mem.
Proof. intros (? & ?). apply zlen_zsplice; lia. Qed.
Lemma effect_frame C st a pos mem : valid (cP C) -> fits (cP C) mem a ->
  zlen (effect (cP C) (cGen C) st a pos mem) = zlen mem /\
  forall i, 0 <= i < zlen mem -> (forall o n, In (o, n) (written (cP C) a) -> ~ (o <= i < o + n)) ->
    znth (effect (cP C) (cGen C) st a pos mem) i = znth mem i.
Proof.
  intros V Hf. set (P := cP C) in *. destruct (sizes C V) as (HN & HD & HB & HCB & ENN & EbB & HDN & EbC & EbMu & Epk & Esk & Ect & Esp & EH). fold P in HN, HD, HB, HCB, ENN, EbB, HDN, EbC, EbMu, Epk, Esk, Ect, Esp, EH.
  destruct a as [pk sk|ct ss pk|ss ct sk|a x]; cbn [fits effect written In] in *.
  - destruct Hf as (F1 & F2 & F3).
    pose proof (KeyGen_parts P (cGen C) V (segment st pos (pCB P)) (segment st (pos + pCB P) (pCB P)) (segment st (pos + 2 * pCB P) 16) ltac:(apply zlen_ztab; lia)) as K.
    destruct (KeyGen P (cGen C) _ _ _) as [PK SK]. destruct K as (L1 & _ & L2 & _).
    rewrite <- L1 in F1. assert (E1 := stored_len _ _ _ F1).
    assert (F2' : region (stored mem pk PK) sk (zlen SK)) by (unfold region in *; rewrite L2, E1; exact F2).
    split; [rewrite stored_len; auto|]. intros i Hi Hn.
    rewrite stored_same; [|exact F2'|rewrite L2; apply Hn; auto|lia]. apply stored_same; [exact F1|rewrite L1; apply Hn; auto|lia].
  - destruct Hf as (F1 & F2 & _).
    pose proof (Encaps_shape P (cGen C) V (zslice mem pk (pkBytes P)) (segment st pos (bytesMu P))) as K.
    destruct (Encaps P (cGen C) _ _) as [CT SS]. destruct K as (L1 & _ & L2 & _).
    rewrite <- L1 in F1. assert (E1 := stored_len _ _ _ F1).
    assert (F2' : region (stored mem ct CT) ss (zlen SS)) by (unfold region in *; rewrite L2, E1; exact F2).
    split; [rewrite stored_len; auto|]. intros i Hi Hn.
    rewrite stored_same; [|exact F2'|rewrite L2; apply Hn; auto|lia]. apply stored_same; [exact F1|rewrite L1; apply Hn; auto|lia].
  - destruct Hf as (F1 & _).
    assert (L1 : zlen (Decaps P (cGen C) (zslice mem sk (skBytes P)) (zslice mem ct (ctBytes P))) = pCB P).
    { unfold Decaps. destruct (Encrypt _ _ _ _ _ _) as [[? ?] ?]. apply (F_zlen_Hash P (cGen C) V); lia. }
    rewrite <- L1 in F1. split; [rewrite stored_len; auto|]. intros i Hi Hn. apply stored_same; [exact F1|rewrite L1; apply Hn; auto|lia].
  - split; [apply stored_len; exact Hf|]. intros i Hi Hn. apply stored_same; [exact Hf|apply Hn; auto|lia].
Qed.
Theorem C43_untouched : forall C st l p rcs p',
  valid (cP C) -> build_ok C -> 2 * pCB (cP C) + 16 < 2 ^ 31 -> (forall i, 0 <= st i < 256) ->
  good (os_read (p_os p)) -> legal (cP C) (cGen C) st l (os_pos (p_os p)) (p_mem p) ->
  returns (acts C st l p) (rcs, p') ->
  zlen (p_mem p') = zlen (p_mem p) /\
  forall i, 0 <= i < zlen (p_mem p) -> (forall a o n, In a l -> In (o, n) (written (cP C) a) -> ~ (o <= i < o + n)) ->
    znth (p_mem p') i = znth (p_mem p) i.
Proof.
  intros C st l p rcs p' V Hb Hs Hst Hg Hl R.
  destruct (C43_history C st l p V Hb Hs Hst Hg Hl) as [E|(p2 & R2 & Em & _)]; [destruct R as (t & R); rewrite R in E; discriminate|].
  pose proof (returns_inj _ _ _ R R2) as E. injection E as _ ->. rewrite Em. clear - V Hl.
  revert Hl. generalize (os_pos (p_os p)) as pos. generalize (p_mem p) as mem.
  induction l as [|a l IH]; intros mem pos Hl; cbn [history legal] in *; [auto|]. destruct Hl as (Hf & Hl).
  destruct (effect_frame C st a pos mem V Hf) as (L1 & F1). destruct (IH _ _ Hl) as (L2 & F2). split; [lia|].
  intros i Hi Hn. rewrite F2; [apply F1; [exact Hi|intros o n Ho; apply (Hn a o n); [left; reflexivity|exact Ho]]|lia|].
  intros b o n Hb. apply Hn. right; exact Hb.
Qed.
Print Assumptions C43_untouched.

(** ** Sessions *)
(** The process makes a key pair, later encapsulates to the public key, later decapsulates; in
    between it does whatever it likes (h2, h3), and moves the three strings where it likes, as long
    as it passes on what it was given.  If the noise of the exchange is tolerable (the condition of
    C01), the two shared secrets are equal; if it is not, the decrypted message is wrong. *)
Definition does (C : config) (st : Z -> Z) (p : process) (l : list action) (p' : process) : Prop :=
  exists rcs, returns (acts C st l p) (rcs, p').
Lemma acts_good C st l : forall p p', good (os_read (p_os p)) -> does C st p l p' -> good (os_read (p_os p')).
Proof.
  induction l as [|a l IH]; intros p p' Hg (rcs & R); cbn [acts] in R.
  - apply ret_inv in R. injection R as _ <-. exact Hg.
  - apply bind_inv in R. destruct R as ([rc p1] & R1 & R). apply bind_inv in R. destruct R as ([rcs1 p2] & R2 & R). apply ret_inv in R. injection R as _ <-.
    apply (IH p1); [|exists rcs1; exact R2].
    assert (AR : forall n lk s, returns (after_random st p n) (lk, s) -> good (os_read s)).
    { intros n lk s H. unfold after_random in H. apply bind_inv in H. destruct H as ([[[b rc'] lk'] s'] & H & H2). apply ret_inv in H2. injection H2 as <- <-.
      destruct (C20_exact _ _ _ _ _ _ _ _ _ Hg H) as (_ & _ & _ & _ & Hl & _). eapply good_later; eauto. }
    destruct a as [pk sk|ct ss pk|ss ct sk|a x]; cbn [act] in R1.
    + apply bind_inv in R1. destruct R1 as ([[m l1] c] & _ & R1). apply bind_inv in R1. destruct R1 as ([lk s] & R3 & R1). apply ret_inv in R1. injection R1 as _ <-. exact (AR _ _ _ R3).
    + apply bind_inv in R1. destruct R1 as ([[m l1] c] & _ & R1). apply bind_inv in R1. destruct R1 as ([lk s] & R3 & R1). apply ret_inv in R1. injection R1 as _ <-. exact (AR _ _ _ R3).
    + apply bind_inv in R1. destruct R1 as ([[m l1] c] & _ & R1). apply ret_inv in R1. injection R1 as _ <-. exact Hg.
    + apply bind_inv in R1. destruct R1 as (m & _ & R1). apply ret_inv in R1. injection R1 as _ <-. exact Hg.
Qed.
Lemma does_one C st a p p' : valid (cP C) -> build_ok C -> 2 * pCB (cP C) + 16 < 2 ^ 31 -> (forall i, 0 <= st i < 256) ->
  good (os_read (p_os p)) -> fits (cP C) (p_mem p) a -> does C st p [a] p' ->
  p_mem p' = effect (cP C) (cGen C) st a (os_pos (p_os p)) (p_mem p).
Proof.
  intros V Hb Hs Hst Hg Hf (rcs & R). 
  destruct (C43_history C st [a] p V Hb Hs Hst Hg) as [E|(p2 & R2 & Em & _)]; [cbn [legal]; auto|destruct R as (t & R); rewrite R in E; discriminate|].
  pose proof (returns_inj _ _ _ R R2) as E. injection E as _ ->. exact Em.
Qed.

Theorem C43_session : forall C st p0 p1 h2 p2 p3 h3 p4 pk sk ct ss pk' ss' ct' sk',
  let P := cP C in
  valid P -> build_ok C -> 2 * pCB P + 16 < 2 ^ 31 -> (forall i, 0 <= st i < 256) -> good (os_read (p_os p0)) ->
  does C st p0 [AKeyPair pk sk] p1 -> does C st p1 h2 p2 -> does C st p2 [AEnc ct ss pk'] p3 -> does C st p3 h3 p4 ->
  fits P (p_mem p0) (AKeyPair pk sk) -> fits P (p_mem p2) (AEnc ct ss pk') -> disjoint ss (pCB P) ct (ctBytes P) ->
  fits P (p_mem p4) (ADec ss' ct' sk') ->
  zslice (p_mem p2) pk' (pkBytes P) = zslice (p_mem p1) pk (pkBytes P) ->
  zslice (p_mem p4) ct' (ctBytes P) = zslice (p_mem p3) ct (ctBytes P) ->
  zslice (p_mem p4) sk' (skBytes P) = zslice (p_mem p1) sk (skBytes P) ->
  let PK := zslice (p_mem p1) pk (pkBytes P) in
  let mu := segment st (os_pos (p_os p2)) (bytesMu P) in
  let ok := forall t, 0 <= t < 64 ->
    tolerated (pD P) (pB P) (noise P (segment st (os_pos (p_os p0) + pCB P) (pCB P)) (Hash P PK (pCB P)) mu t) in
  (ok -> exists p5, returns (acts C st [ADec ss' ct' sk'] p4) ([0], p5) /\
           holds (p_mem p5) ss' (pCB P) (zslice (p_mem p3) ss (pCB P))) /\
  (~ ok -> Decrypt P (zslice (p_mem p1) sk (skBytes P)) (zslice (p_mem p3) ct (ctBytes P)) <> mu).
Proof.
  intros C st p0 p1 h2 p2 p3 h3 p4 pk sk ct ss pk' ss' ct' sk' P V Hb Hs Hst Hg D1 D2 D3 D4 F1 F3 Dis F5 Epk Ect Esk PK mu ok.
  assert (Hg1 := acts_good _ _ _ _ _ Hg D1). assert (Hg2 := acts_good _ _ _ _ _ Hg1 D2).
  assert (Hg3 := acts_good _ _ _ _ _ Hg2 D3). assert (Hg4 := acts_good _ _ _ _ _ Hg3 D4).
  pose proof (does_one _ _ _ _ _ V Hb Hs Hst Hg F1 D1) as M1. pose proof (does_one _ _ _ _ _ V Hb Hs Hst Hg2 F3 D3) as M3.
  fold P in M1, M3. cbn [effect] in M1, M3.
  destruct (sizes C V) as (HN & HD & HB & HCB & ENN & EbB & HDN & EbC & EbMu & EP & ES & EC & Esp & EH). fold P in HN, HD, HB, HCB, ENN, EbB, HDN, EbC, EbMu, EP, ES, EC, Esp, EH.
  set (s := segment st (os_pos (p_os p0)) (pCB P)) in *. set (seedSE := segment st (os_pos (p_os p0) + pCB P) (pCB P)) in *. set (z := segment st (os_pos (p_os p0) + 2 * pCB P) 16) in *.
  assert (Hsb : bytestr (pCB P) s) by (apply segment_bytes; [exact Hst|lia]). assert (Hmu : bytestr (bytesMu P) mu) by (apply segment_bytes; [exact Hst|lia]).
  pose proof (KeyGen_parts P (cGen C) V s seedSE z (proj1 Hsb)) as KP.
  pose proof (Decrypt_Encaps P (cGen C) V s seedSE z mu (proj1 Hsb) (proj1 Hmu) (proj2 Hmu)) as HDec.
  pose proof (Encaps_reencrypt P (cGen C) V s seedSE z mu (proj1 Hsb)) as HR.
  destruct (KeyGen P (cGen C) s seedSE z) as [PK0 SK0]. destruct KP as (LPK & BPK & LSK & BSK & _).
  cbn [fits] in F1, F3, F5. destruct F1 as (R1 & R2 & Dk).
  assert (EPK : PK = PK0).
  { unfold PK. rewrite M1. assert (R1' : region (p_mem p0) pk (zlen PK0)) by (rewrite LPK; exact R1).
    rewrite read_stored_other; [apply read_stored; auto| | |lia|rewrite LSK; unfold disjoint in *; lia];
      unfold region; rewrite (stored_len _ _ _ R1'), ?LSK; assumption. }
  assert (ESK : zslice (p_mem p1) sk (skBytes P) = SK0).
  { rewrite M1. apply read_stored; [exact LSK|]. assert (R1' : region (p_mem p0) pk (zlen PK0)) by (rewrite LPK; exact R1).
    unfold region. rewrite (stored_len _ _ _ R1'). exact R2. }
  rewrite Epk in M3. fold PK mu in M3. rewrite EPK in M3. pose proof (Encaps_shape P (cGen C) V PK0 mu) as KS.
  destruct (Encaps P (cGen C) PK0 mu) as [CT SS]. destruct KS as (LCT & BCT & LSS & BSS). destruct HR as (HR & HS).
  destruct F3 as (R3 & R4 & _). assert (R3' : region (p_mem p2) ct (zlen CT)) by (rewrite LCT; exact R3).
  assert (ECT : zslice (p_mem p3) ct (ctBytes P) = CT).
  { rewrite M3. rewrite read_stored_other; [apply read_stored; auto| | |lia|rewrite LSS; exact Dis];
      unfold region; rewrite (stored_len _ _ _ R3'), ?LSS; assumption. }
  assert (ESS : zslice (p_mem p3) ss (pCB P) = SS).
  { rewrite M3. apply read_stored; [exact LSS|]. unfold region. rewrite (stored_len _ _ _ R3'). exact R4. }
  rewrite ESS, ECT, ESK. unfold ok. rewrite EPK. split; [|intros Hn E; apply Hn, HDec, E]. intros Hok. apply HDec in Hok.
  assert (F5' : fits P (p_mem p4) (ADec ss' ct' sk')) by exact F5. 
  destruct (act_cases C st V Hb Hs Hst (ADec ss' ct' sk') p4 Hg4 F5') as [E|(p5 & R & Em & _)].
  - exfalso. cbn [act] in E. destruct F5 as (G1 & G2 & G3 & G4 & G5 & G6).
    destruct (C05_dec C (p_mem p4) ss' ct' sk' _ _ V Hb (conj G3 eq_refl) G5 G6 (conj G2 eq_refl) G4 G1) as (l & t & K).
    rewrite K in E. discriminate.
  - exists p5. split; [cbn [acts]; eapply bind_ok; [exact R|]; cbv beta iota; exists []; reflexivity|].
    rewrite Em. fold P. cbn [effect]. rewrite Esk, Ect, ESK, ECT.
    destruct (Decaps_cases P (cGen C) V SK0 CT LCT BCT) as (H1 & _).
    rewrite H1; [|unfold accepted; rewrite Hok; exact HR]. rewrite Hok, <- HS.
    destruct F5 as (G1 & _). assert (G1' : region (p_mem p4) ss' (zlen SS)) by (rewrite LSS; exact G1).
    split; [unfold region; rewrite (stored_len _ _ _ G1'); exact G1|apply read_stored; auto].
Qed.
Print Assumptions C43_session.

(** ** The hypotheses are met *)
(** In a memory without uninitialised bytes only the addresses matter. *)
Definition placed (P : params) (size : Z) (a : action) : Prop :=
  let inside x n := 0 <= x /\ x + n <= size in
  match a with
  | AKeyPair pk sk => inside pk (pkBytes P) /\ inside sk (skBytes P) /\ disjoint pk (pkBytes P) sk (skBytes P)
  | AEnc ct ss pk => inside ct (ctBytes P) /\ inside ss (pCB P) /\ inside pk (pkBytes P) /\ disjoint ct (ctBytes P) pk (pkBytes P)
  | ADec ss ct sk => inside ss (pCB P) /\ inside ct (ctBytes P) /\ inside sk (skBytes P) /\ sk mod 2 = 0
  | AStore a x => inside a (zlen x) /\ bytes_ok x
  end.
Lemma stored_bytes mem a x : bytes_ok mem -> bytes_ok x -> bytes_ok (stored mem a x).
Proof. intros. unfold stored. apply inrange_zsplice; assumption. Qed.
Lemma effect_bytes C st a pos mem : valid (cP C) -> (forall i, 0 <= st i < 256) -> bytes_ok mem -> placed (cP C) (zlen mem) a ->
  bytes_ok (effect (cP C) (cGen C) st a pos mem).
Proof.
  intros V Hst Bm Ha. set (P := cP C) in *.
  destruct (sizes C V) as (HN & HD & HB & HCB & ENN & EbB & HDN & EbC & EbMu & EP & ES & EC & Esp & EH). fold P in HN, HD, HB, HCB, ENN, EbB, HDN, EbC, EbMu, EP, ES, EC, Esp, EH.
  destruct a as [pk sk|ct ss pk|ss ct sk|a x]; cbn [effect].
  - assert (Hsb : bytestr (pCB P) (segment st pos (pCB P))) by (apply segment_bytes; [exact Hst|lia]).
    pose proof (KeyGen_parts P (cGen C) V (segment st pos (pCB P)) (segment st (pos + pCB P) (pCB P)) (segment st (pos + 2 * pCB P) 16) (proj1 Hsb)) as K.
    destruct (KeyGen P (cGen C) _ _ _) as [PK SK]. destruct K as (_ & B1 & _ & B2 & _). apply stored_bytes; [apply stored_bytes; assumption|apply B2, Hsb].
  - pose proof (Encaps_shape P (cGen C) V (zslice mem pk (pkBytes P)) (segment st pos (bytesMu P))) as K.
    destruct (Encaps P (cGen C) _ _) as [CT SS]. destruct K as (_ & B1 & _ & B2). apply stored_bytes; [apply stored_bytes; assumption|exact B2].
  - apply stored_bytes; [exact Bm|]. unfold Decaps. destruct (Encrypt _ _ _ _ _ _) as [[? ?] ?]. apply (F_Hash_ok P (cGen C) V).
  - apply stored_bytes; [exact Bm|]. apply Ha.
Qed.
Theorem C43_placed : forall C st l pos mem, valid (cP C) -> (forall i, 0 <= st i < 256) -> bytes_ok mem ->
  Forall (placed (cP C) (zlen mem)) l -> legal (cP C) (cGen C) st l pos mem.
Proof.
  intros C st l pos mem V Hst. revert pos mem. set (P := cP C) in *.
  induction l as [|a l IH]; intros pos mem Bm Hl; cbn [legal]; [exact I|]. inversion Hl as [|? ? Ha Hl']; subst.
  assert (Hf : fits P mem a).
  { destruct a; cbn [placed fits] in *; unfold region; repeat match goal with H : _ /\ _ |- _ => destruct H end; repeat split; try assumption; try (apply inrange_zslice; exact Bm). }
  split; [exact Hf|]. destruct (effect_frame C st a pos mem V Hf) as (L & _). fold P in L.
  apply IH; [apply effect_bytes; assumption|rewrite L; exact Hl'].
Qed.
Print Assumptions C43_placed.
(** FrodoKEM-976: a key pair, two encapsulations to it, one ciphertext overwritten in one byte, two
    decapsulations; each read brings at most 3 bytes and every other one fails. *)
Definition actions976 : list action :=
  [AKeyPair 0 16000; AEnc 48000 64000 0; AEnc 65000 81000 0; AStore 65001 [7]; ADec 81100 48000 16000; ADec 81200 65000 16000].
Definition answers976 : list read_answer := concat (repeat [RErr; RGive 3] 120).
Definition process976 : process := mkp mem976 (-1) {| os_open := [-1; 5]; os_read := answers976; os_pos := 1000 |}.
Definition stream976 (i : Z) : Z := (i * i * 3 + 11) mod 256.
Example C43_hyps :
  valid (cP C976) /\ build_ok C976 /\ 2 * pCB (cP C976) + 16 < 2 ^ 31 /\ (forall i, 0 <= stream976 i < 256) /\
  good (os_read (p_os process976)) /\
  legal (cP C976) (cGen C976) stream976 actions976 (os_pos (p_os process976)) (p_mem process976) /\
  (p_lock process976 = -1 -> exists fd, In fd (os_open (p_os process976)) /\ fd <> -1) /\
  taken (cP C976) actions976 <= useful (os_read (p_os process976)).
Proof.
  split; [exact valid_976|]. split; [intros H; exfalso; apply H; reflexivity|]. split; [vm_compute; reflexivity|]. split; [intros; apply mod256|].
  change (os_read (p_os process976)) with answers976.
  split.
  { intros k Hk. assert (K : forallb (fun a => match a with RErr => true | RGive k => 0 <=? k end) answers976 = true) by (vm_compute; reflexivity).
    rewrite forallb_forall in K. specialize (K _ Hk). now apply Z.leb_le in K. }
  split.
  { assert (L : zlen mem976 = 100000) by (apply zlen_ztab; lia).
    assert (B : bytes_ok mem976) by (apply inrange_ztab; intros; apply mod256).
    change (p_mem process976) with mem976. revert L B. generalize mem976. intros mem L B.
    apply C43_placed; [exact valid_976|intros; apply mod256|exact B|]. rewrite L.
    assert (Epk : pkBytes (cP C976) = 15632) by reflexivity. assert (Esk : skBytes (cP C976) = 31296) by reflexivity.
    assert (Ect : ctBytes (cP C976) = 15744) by reflexivity. assert (ECB : pCB (cP C976) = 24) by reflexivity.
    unfold actions976. repeat (apply Forall_cons || apply Forall_nil); unfold placed, disjoint; cbv zeta; rewrite ?Epk, ?Esk, ?Ect, ?ECB;
      repeat match goal with |- _ /\ _ => split | |- bytes_ok _ => repeat (apply Forall_cons || apply Forall_nil) | |- _ mod _ = _ => reflexivity end; try lia; cbn; lia. }
  split; [intros _; exists 5; split; [right; left; reflexivity|lia]|]. vm_compute. discriminate.
Qed.
