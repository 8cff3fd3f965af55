(** The runs of OpenSsl.v are those of Kem.v as long as no call of the library fails. *)
From Verif Require Import CSem Params Util Fips202 Fips202x4 Aes Macrify Kem Rng OpenSsl.

(** The calls cs are made, and if none of them fails the value is a. *)
Fixpoint perform {A} (ok : Z -> bool) (cs : list evp_call) (a : A) : ev A :=
  match cs with
  | [] => eret a
  | c :: cs => _ <~ evp ok c ;; perform ok cs a
  end.
(** When m returns a value, m' returns it too after the calls cs, or aborts at the first that fails. *)
Definition follows {A} (ok : Z -> bool) (m' : ev A) (m : res A) (cs : list evp_call) : Prop :=
  forall a, returns m a -> forall l, m' l = perform ok cs a l.

Lemma returns_bind {A B} (m : res A) (f : A -> res B) b : returns (bind m f) b -> exists a, returns m a /\ returns (f a) b.
Proof.
  intros (t & H). destruct m as [a t1|e]; cbn [bind] in H; [|discriminate]. exists a. split; [eexists; reflexivity|].
  destruct (f a) as [b' t2|e]; [|discriminate]. injection H as -> _. eexists; reflexivity.
Qed.
Lemma returns_bind_intro {A B} (m : res A) (f : A -> res B) a b : returns m a -> returns (f a) b -> returns (bind m f) b.
Proof. intros (t & ->) (t' & E). cbn [bind]. rewrite E. eexists; reflexivity. Qed.
Lemma perform_bind {A B} ok cs1 cs2 (a : A) (b : B) (f : A -> ev B) : (forall l, f a l = perform ok cs2 b l) ->
  forall l, ebind (perform ok cs1 a) f l = perform ok (cs1 ++ cs2) b l.
Proof.
  intros H. induction cs1 as [|c cs1 IH]; intros l; cbn [perform app]; [unfold ebind, eret; apply H|].
  specialize (IH (l ++ [c])). unfold ebind in *. destruct (evp ok c l) as [u l'|l'|e] eqn:E; try reflexivity.
  assert (l' = l ++ [c]) by (unfold evp in E; destruct c; try destruct (ok (zlen l)); congruence). subst l'. exact IH.
Qed.
Section Rules.
Variable ok : Z -> bool.
Lemma follows_lift {A} (m : res A) : follows ok (lift m) m [].
Proof. intros a (t & ->) l. reflexivity. Qed.
Lemma follows_ret {A} (a : A) : follows ok (eret a) (ret a) [].
Proof. intros b (t & H) l. injection H as -> _. reflexivity. Qed.
Lemma follows_bind {A B} (m' : ev A) m (f' : A -> ev B) f cs1 cs2 : follows ok m' m cs1 ->
  (forall a, returns m a -> follows ok (f' a) (f a) cs2) -> follows ok (ebind m' f') (bind m f) (cs1 ++ cs2).
Proof.
  intros H1 H2 b Hb l. apply returns_bind in Hb. destruct Hb as (a & Ha & Hb).
  rewrite <- (perform_bind ok cs1 cs2 a b f' (H2 a Ha b Hb)). unfold ebind. rewrite (H1 a Ha l). reflexivity.
Qed.
(** Code without calls, then ... *)
Lemma follows_step {A B} (m : res A) (f' : A -> ev B) f cs :
  (forall a, returns m a -> follows ok (f' a) (f a) cs) -> follows ok (ebind (lift m) f') (bind m f) cs.
Proof. intros H. exact (follows_bind _ _ _ _ [] cs (follows_lift m) H). Qed.
(** A computation with calls, then code without ... *)
Lemma follows_last {A B} (m' : ev A) m (f' : A -> ev B) f cs : follows ok m' m cs ->
  (forall a, returns m a -> follows ok (f' a) (f a) []) -> follows ok (ebind m' f') (bind m f) cs.
Proof. intros H1 H2. rewrite <- (app_nil_r cs). eapply follows_bind; eassumption. Qed.
(** One call, then ... *)
Lemma follows_call {A} c (k : unit -> ev A) m cs : follows ok (k tt) m cs -> follows ok (ebind (evp ok c) k) m (c :: cs).
Proof.
  intros H a Ha l. specialize (H a Ha). cbn [perform]. unfold ebind. destruct (evp ok c l) as [[] l'|l'|e]; [apply H|reflexivity|reflexivity].
Qed.
Lemma follows_one {A} c (m' : ev unit) (k : unit -> ev A) m cs : m' = evp ok c -> follows ok (k tt) m cs -> follows ok (ebind m' k) m (c :: cs).
Proof. intros ->. apply follows_call. Qed.
Lemma follows_eq {A} (m' : ev A) m1 m2 cs : (forall a, returns m2 a -> returns m1 a) -> follows ok m' m1 cs -> follows ok m' m2 cs.
Proof. intros HE H a Ha. apply H, HE, Ha. Qed.
Lemma follows_assoc {A B D} (m' : ev D) (m : res A) (f : A -> res B) g cs :
  follows ok m' (bind m (fun x => bind (f x) g)) cs -> follows ok m' (bind (bind m f) g) cs.
Proof.
  apply follows_eq. intros d Hd. apply returns_bind in Hd. destruct Hd as (b & Hb & Hd). apply returns_bind in Hb. destruct Hb as (a & Ha & Hb).
  eapply returns_bind_intro; [exact Ha|]. eapply returns_bind_intro; eassumption.
Qed.
(** Loops: every round makes the calls cs, as long as the state satisfies I. *)
Fixpoint times (n : nat) (cs : list evp_call) : list evp_call := match n with O => [] | Datatypes.S n => cs ++ times n cs end.
Lemma follows_for_n {S} (I : S -> Prop) (body' : Z -> S -> ev S) body cs step :
  (forall i s, I s -> follows ok (body' i s) (body i s) cs) ->
  (forall i s s', I s -> returns (body i s) s' -> I s') ->
  forall n i s, I s -> follows ok (efor_n n i step body' s) (for_n n i step body s) (times n cs).
Proof.
  intros HB HI n. induction n as [|n IH]; intros i s Hs; cbn [efor_n for_n times]; [apply follows_ret|].
  apply follows_bind; [apply HB, Hs|]. intros s' Hs'. apply IH. eapply HI; eassumption.
Qed.
Lemma for_n_inv {S} (I : S -> Prop) (body : Z -> S -> res S) step :
  (forall i s s', I s -> returns (body i s) s' -> I s') ->
  forall n i s s', I s -> returns (for_n n i step body s) s' -> I s'.
Proof.
  intros HI n. induction n as [|n IH]; intros i s s' Hs H; cbn [for_n] in H.
  - destruct H as (t & H). injection H as -> _. exact Hs.
  - apply returns_bind in H. destruct H as (s1 & H1 & H2). eapply IH; [eapply HI|]; eassumption.
Qed.
Lemma returns_emit {A} ev (m : res A) a : returns (emit ev ;;; m) a -> returns m a.
Proof. intros H. apply returns_bind in H. destruct H as ([] & _ & H). exact H. Qed.
Lemma follows_for_step {S} (I : S -> Prop) (body' : Z -> S -> ev S) body cs lo hi step s :
  (forall i s, I s -> follows ok (body' i s) (body i s) cs) ->
  (forall i s s', I s -> returns (body i s) s' -> I s') -> I s ->
  follows ok (efor_step lo hi step body' s) (for_step lo hi step body s) (times (Z.to_nat ((hi - lo + step - 1) / step)) cs).
Proof.
  intros HB HI Hs. unfold efor_step, for_step. eapply follows_eq; [intros a; apply returns_emit|].
  apply (follows_for_n I); assumption.
Qed.
Lemma for_step_inv {S} (I : S -> Prop) (body : Z -> S -> res S) lo hi step s s' :
  (forall i s s', I s -> returns (body i s) s' -> I s') -> I s -> returns (for_step lo hi step body s) s' -> I s'.
Proof. intros HI Hs H. apply returns_emit in H. eapply for_n_inv; eassumption. Qed.
Lemma times_nil n : times n [] = []. Proof. induction n; auto. Qed.
End Rules.

(** ** The calls of the routines *)
(** Does the state of the row generator hold an AES context? *)
Definition gen_of (st : gst) : genA := match st with GsAES _ _ => GenAES | _ => GenSHAKE end.
Definition opt_calls (g : genA) (rounds len : Z) : list evp_call :=
  match g with
  | GenAES => CtxNew :: EncryptInit :: times (Z.to_nat rounds) [EncryptUpdate len] ++ [CtxFree]
  | GenSHAKE => []
  end.
Definition ref_calls (g : genA) (N : Z) : list evp_call :=
  match g with
  | GenAES => [CtxNew; EncryptInit; EncryptUpdate (N * N * 2); CtxFree]
  | GenSHAKE => []
  end.

Section Macrify.
Variables (ok : Z -> bool) (en : endian).
Ltac go := repeat first [apply follows_step; intros ? _ | apply follows_ret | apply follows_lift | apply follows_call].

Ltac assoc := repeat (match goal with |- follows _ _ (bind (bind _ _) _) _ => apply follows_assoc end).
Lemma ref_genA_follows g N seed : follows ok (evp_ref_genA ok en g N seed) (ref_genA en g AesEVP N seed) (ref_calls g N).
Proof.
  unfold evp_ref_genA, ref_genA. destruct g; cbv zeta; [|apply follows_lift].
  assoc. apply follows_step; intros ? _. cbn [ref_calls]. do 2 apply follows_call.
  assoc. apply follows_step; intros ? _. apply follows_call.
  assoc. apply follows_step; intros ? _. apply follows_call.
  assoc. apply follows_step; intros ? _.
  eapply follows_eq; [|apply follows_lift]. intros x Hx. apply returns_bind in Hx. destruct Hx as (y & (t & Hy) & Hx).
  injection Hy as <- _. exact Hx.
Qed.
Lemma ref_as_follows g N out s e seed :
  follows ok (evp_ref_as_plus_e ok en g N out s e seed) (ref_as_plus_e en g AesEVP N out s e seed) (ref_calls g N).
Proof. unfold evp_ref_as_plus_e, ref_as_plus_e. eapply follows_last; [apply ref_genA_follows|]. intros A _. go. Qed.
Lemma ref_sa_follows g N out s e seed :
  follows ok (evp_ref_sa_plus_e ok en g N out s e seed) (ref_sa_plus_e en g AesEVP N out s e seed) (ref_calls g N).
Proof. unfold evp_ref_sa_plus_e, ref_sa_plus_e. eapply follows_last; [apply ref_genA_follows|]. intros A _. go. Qed.

Definition row_calls (g : genA) (len : Z) : list evp_call := match g with GenAES => [EncryptUpdate len] | GenSHAKE => [] end.
Definition free_calls (g : genA) : list evp_call := match g with GenAES => [CtxFree] | GenSHAKE => [] end.
Lemma as_rows_follows N i a st : follows ok (evp_as_rows ok en N i a st) (as_rows en AesEVP N i a st) (row_calls (gen_of st) (4 * N * 2)).
Proof. destruct st; cbn [evp_as_rows as_rows gen_of row_calls]; try apply follows_lift. go. Qed.
Lemma sa_rows_follows N i a st : follows ok (evp_sa_rows ok en N i a st) (sa_rows en AesEVP N i a st) (row_calls (gen_of st) (8 * N * 2)).
Proof. destruct st; cbn [evp_sa_rows sa_rows gen_of row_calls]; try apply follows_lift. go. Qed.
Lemma free_follows st : follows ok (evp_gst_free ok st) (gst_free st) (free_calls (gen_of st)).
Proof. destruct st; cbn [evp_gst_free gst_free gen_of free_calls]; go. Qed.

Ltac inv H := repeat first
  [ match type of H with returns (ret _) _ => destruct H as (? & H); injection H as <- _ end
  | match type of H with returns (bind _ _) _ => apply returns_bind in H; destruct H as (? & _ & H) end ].
Lemma as_rows_gen N i a st r : returns (as_rows en AesEVP N i a st) r -> gen_of (snd r) = gen_of st.
Proof.
  intros H. destruct st; cbn [as_rows] in H.
  - inv H. reflexivity.
  - apply returns_bind in H. destruct H as ([x y] & _ & H). inv H. reflexivity.
  - inv H. reflexivity.
Qed.
Lemma sa_rows_gen N i a st r : returns (sa_rows en AesEVP N i a st) r -> gen_of (snd r) = gen_of st.
Proof.
  intros H. destruct st; cbn [sa_rows] in H.
  - inv H. reflexivity.
  - apply returns_bind in H. destruct H as ([x y] & _ & H). inv H. reflexivity.
  - inv H. reflexivity.
Qed.
Lemma as_init_gen g avx N seed st : returns (as_init en g AesEVP avx N seed) st -> gen_of st = g.
Proof. intros H. unfold as_init in H. destruct g; cbv zeta in H; [inv H; reflexivity|]. destruct avx; inv H; reflexivity. Qed.
Lemma sa_init_gen g avx N seed st : returns (sa_init en g AesEVP avx N seed) st -> gen_of st = g.
Proof. intros H. unfold sa_init in H. destruct g; cbv zeta in H; [inv H; reflexivity|]. destruct avx; inv H; reflexivity. Qed.

Lemma open_follows {A} g (k : unit -> ev A) m cs : follows ok (k tt) m cs ->
  follows ok (ebind (evp_open ok g) k) m (match g with GenAES => [CtxNew; EncryptInit] | GenSHAKE => [] end ++ cs).
Proof.
  intros H a Ha l. specialize (H a Ha). destruct g; cbn [evp_open app perform]; unfold ebind, eret.
  - destruct (evp ok CtxNew l) as [[] l'|l'|e]; try reflexivity. destruct (evp ok EncryptInit l') as [[] l''|l''|e]; try reflexivity. apply H.
  - apply H.
Qed.

Lemma opt_as_follows g avx N out s e seed :
  follows ok (evp_opt_as_plus_e ok en g avx N out s e seed) (opt_as_plus_e en g AesEVP avx N out s e seed)
    (opt_calls g ((N - 0 + 4 - 1) / 4) (4 * N * 2)).
Proof.
  unfold evp_opt_as_plus_e, opt_as_plus_e. cbv zeta. apply follows_step; intros o _.
  replace (opt_calls _ _ _) with ((match g with GenAES => [CtxNew; EncryptInit] | GenSHAKE => [] end) ++
     (times (Z.to_nat ((N - 0 + 4 - 1) / 4)) (row_calls g (4 * N * 2)) ++ free_calls g)).
  2:{ destruct g; cbn [opt_calls row_calls free_calls app]; [reflexivity|]. rewrite times_nil. reflexivity. }
  apply open_follows. apply follows_step; intros st Hst. apply as_init_gen in Hst.
  set (I := fun x : list Z * list Z * gst => gen_of (snd x) = g). eapply follows_bind.
  - apply (follows_for_step ok I); [| |exact Hst].
    + intros i [[o' a'] st'] Hi. unfold I in Hi; cbn in Hi. rewrite <- Hi. eapply follows_last; [apply as_rows_follows|].
      intros [a2 st2] _. go.
    + intros i [[o' a'] st'] x' Hi H. unfold I in *; cbn in Hi. apply returns_bind in H. destruct H as ([a2 st2] & H1 & H).
      apply as_rows_gen in H1. cbn in H1. inv H. cbn. congruence.
  - intros [[o2 a2] st2] H. apply (for_step_inv I) in H; [|clear|exact Hst].
    + unfold I in H; cbn in H. rewrite <- H. eapply follows_last; [apply free_follows|]. intros _ _. apply follows_ret.
    + intros i [[o' a'] st'] x' Hi H. unfold I in *; cbn in Hi. apply returns_bind in H. destruct H as ([a2 st2] & H1 & H).
      apply as_rows_gen in H1. cbn in H1. inv H. cbn. congruence.
Qed.
Lemma opt_sa_follows g avx N eb out s e seed :
  follows ok (evp_opt_sa_plus_e ok en g avx N eb out s e seed) (opt_sa_plus_e en g AesEVP avx N eb out s e seed)
    (opt_calls g ((N - 0 + 8 - 1) / 8) (8 * N * 2)).
Proof.
  unfold evp_opt_sa_plus_e, opt_sa_plus_e. cbv zeta.
  replace (opt_calls _ _ _) with ((match g with GenAES => [CtxNew; EncryptInit] | GenSHAKE => [] end) ++
     (times (Z.to_nat ((N - 0 + 8 - 1) / 8)) (row_calls g (8 * N * 2)) ++ free_calls g)).
  2:{ destruct g; cbn [opt_calls row_calls free_calls app]; [reflexivity|]. rewrite times_nil. reflexivity. }
  apply open_follows. apply follows_step; intros st Hst. apply sa_init_gen in Hst.
  set (I := fun x : list Z * list Z * gst => gen_of (snd x) = g).
  assert (HI : forall i s0 s', I s0 -> returns ((fun i '(e, A, st) => '(A, st) <- sa_rows en AesEVP N i A st ;;
      e <- (if avx then sa_block_avx eb N i A s e else sa_block N i A s e) ;; ret (e, A, st)) i s0) s' -> I s').
  { intros i [[o' a'] st'] x' Hi H. unfold I in *; cbn in Hi. apply returns_bind in H. destruct H as ([a2 st2] & H1 & H).
    apply sa_rows_gen in H1. cbn in H1. inv H. cbn. congruence. }
  eapply follows_bind.
  - apply (follows_for_step ok I); [|exact HI|exact Hst].
    intros i [[o' a'] st'] Hi. unfold I in Hi; cbn in Hi. rewrite <- Hi. eapply follows_last; [apply sa_rows_follows|].
    intros [a2 st2] _. go.
  - intros [[o2 a2] st2] H. apply (for_step_inv I) in H; [|exact HI|exact Hst].
    unfold I in H; cbn in H. rewrite <- H. apply follows_step; intros o3 _.
    eapply follows_last; [apply free_follows|]. intros _ _. apply follows_ret.
Qed.
End Macrify.

Definition as_calls (C : config) : list evp_call :=
  match cImpl C with
  | Reference => ref_calls (cGen C) (pN (cP C))
  | _ => opt_calls (cGen C) ((pN (cP C) - 0 + 4 - 1) / 4) (4 * pN (cP C) * 2)
  end.
Definition sa_calls (C : config) : list evp_call :=
  match cImpl C with
  | Reference => ref_calls (cGen C) (pN (cP C))
  | _ => opt_calls (cGen C) ((pN (cP C) - 0 + 8 - 1) / 8) (8 * pN (cP C) * 2)
  end.
Section Kem.
Variables (ok : Z -> bool) (C : config).
Hypothesis HA : cAes C = AesEVP.
Lemma as_follows out s e seed : follows ok (evp_as_plus_e ok C out s e seed) (as_plus_e C out s e seed) (as_calls C).
Proof. unfold evp_as_plus_e, as_plus_e, as_calls. rewrite HA. destruct (cImpl C); [apply ref_as_follows|apply opt_as_follows..]. Qed.
Lemma sa_follows eb out s e seed : follows ok (evp_sa_plus_e ok C eb out s e seed) (sa_plus_e C eb out s e seed) (sa_calls C).
Proof.
  unfold evp_sa_plus_e, sa_plus_e, sa_calls. rewrite HA. destruct (cImpl C); [|apply opt_sa_follows..].
  eapply follows_last; [apply ref_sa_follows|]. intros x _. apply follows_ret.
Qed.
Ltac go := repeat first
  [ apply follows_ret | apply follows_lift
  | apply follows_step; intros ? _
  | eapply follows_last; [apply as_follows|intros ? _]
  | eapply follows_last; [apply sa_follows|intros ? _]
  | match goal with |- follows _ (match ?x with pair _ _ => _ end) _ _ => destruct x end ].
Lemma keypair_follows rb mem pk sk : follows ok (evp_keypair ok C rb mem pk sk) (crypto_kem_keypair C rb mem pk sk) (as_calls C).
Proof. unfold evp_keypair, crypto_kem_keypair. cbv zeta. go. Qed.
Lemma enc_follows rb mem ct ss pk : follows ok (evp_enc ok C rb mem ct ss pk) (crypto_kem_enc C rb mem ct ss pk) (sa_calls C).
Proof. unfold evp_enc, crypto_kem_enc. cbv zeta. go. Qed.
Lemma dec_follows mem ss ct sk : follows ok (evp_dec ok C mem ss ct sk) (crypto_kem_dec C mem ss ct sk) (sa_calls C).
Proof. unfold evp_dec, crypto_kem_dec. cbv zeta. go. Qed.
End Kem.
Lemma ecb_follows ok key ctr buf :
  follows ok (evp_AES256_ECB ok key ctr buf) (AES256_ECB AesEVP key ctr buf) [CtxNew; EncryptInit; EncryptUpdate 16; CtxFree].
Proof. unfold evp_AES256_ECB, AES256_ECB. repeat first [apply follows_step; intros ? _ | apply follows_ret | apply follows_call]. Qed.
