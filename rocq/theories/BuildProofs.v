(** Proofs about Build.v. *)
From Coq Require Import String List Bool.
From Verif Require Import Params Build BuildSpec.
Import ListNotations.
Local Open Scope string_scope.
Local Infix "=?" := String.eqb.

(** ** The macros for given options *)
Definition impl_macros (i : impl) : list string :=
  match i with Reference => ["USE_REFERENCE"] | Optimized => ["USE_FAST_GENERIC"] | AVX2 => ["USE_AVX2"; "AES_ENABLE_NI"; "USE_FAST"] end.
Lemma use_opt_level o : USE_OPT_LEVEL o =
  match impl_named o with Reference => "_REFERENCE_" | Optimized => "_FAST_GENERIC_" | AVX2 => "_FAST_" end.
Proof.
  unfold USE_OPT_LEVEL, ARCHITECTURE, impl_named.
  destruct (OPT_LEVEL o =? "REFERENCE"); [reflexivity|].
  destruct (OPT_LEVEL o =? "FAST_GENERIC"); [reflexivity|].
  destruct (ARCH o =? "x64") eqn:E1.
  - apply String.eqb_eq in E1; rewrite E1. destruct (OPT_LEVEL o =? "FAST"); reflexivity.
  - destruct (ARCH o =? "x86"); [destruct (OPT_LEVEL o =? "FAST"); reflexivity|].
    destruct (ARCH o =? "ARM"); destruct (OPT_LEVEL o =? "FAST"); reflexivity.
Qed.
Lemma use_generation_A o : USE_GENERATION_A o =
  match gen_named o with GenAES => "_AES128_FOR_A_" | GenSHAKE => "_SHAKE128_FOR_A_" end.
Proof.
  unfold USE_GENERATION_A, gen_named. destruct (GENERATION_A o =? "AES128") eqn:E1.
  - apply String.eqb_eq in E1; rewrite E1; reflexivity.
  - destruct (GENERATION_A o =? "SHAKE128"); reflexivity.
Qed.
(** The compiler gets the macros the options name; no #error is reached. *)
Record macros_ok (o : options) (M : list string) : Prop := {
  mo_ref : has M "USE_REFERENCE" = match impl_named o with Reference => true | _ => false end;
  mo_avx : has M "USE_AVX2" = match impl_named o with AVX2 => true | _ => false end;
  mo_ni : has M "AES_ENABLE_NI" = match impl_named o with AVX2 => true | _ => false end;
  mo_gen : has M "USE_AES128_FOR_A" = match gen_named o with GenAES => true | _ => false end;
  mo_ossl : has M "USE_OPENSSL" = negb (own_aes o) }.
Lemma config_ok o : exists M, config_h (defines o) = Some M /\ macros_ok o M.
Proof.
  unfold defines. rewrite use_opt_level, use_generation_A. unfold USING_OPENSSL.
  assert (A : ARCHITECTURE o = "_AMD64_" \/ ARCHITECTURE o = "_X86_" \/ ARCHITECTURE o = "_ARM_").
  { unfold ARCHITECTURE. destruct (_ =? _); [auto|]. destruct (_ =? _); [auto|]. destruct (_ =? _); auto. }
  destruct A as [-> | [-> | ->]];
    (destruct (impl_named o) eqn:EI; destruct (gen_named o) eqn:EG; destruct (USE_OPENSSL o =? "FALSE") eqn:EO;
     eexists; (split; [reflexivity|]); constructor; unfold own_aes; rewrite ?EI, ?EG, ?EO; reflexivity).
Qed.

(** ** Histories *)
Lemma mem_obj_in x l : mem_obj x l = true <-> In x l.
Proof.
  unfold mem_obj. rewrite existsb_exists. split.
  - intros (y & H & E). destruct (obj_eq_dec x y); [subst; auto|discriminate].
  - intros H; exists x; split; [auto|]. destruct (obj_eq_dec x x); auto.
Qed.
Lemma compile_spec M l fs y :
  fold_left (compile1 M) l fs y = match fs y with Some m => Some m | None => if mem_obj y l then Some M else None end.
Proof.
  revert fs; induction l as [|x l IH]; intros fs; cbn.
  - destruct (fs y); auto.
  - rewrite IH. unfold compile1. destruct (fs y); [auto|].
    destruct (obj_eq_dec x y), (obj_eq_dec y x); subst; try congruence; cbn; auto.
Qed.
Lemma after_all_snoc h e : after_all (h ++ [e]) = event_step (after_all h) e.
Proof. unfold after_all; rewrite fold_left_app; reflexivity. Qed.
Lemma after_snoc h e : after (h ++ [e]) = st_objs (event_step (after_all h) e).
Proof. unfold after; rewrite after_all_snoc; reflexivity. Qed.

Lemma snoc_inj {A} (h : list A) e a x b : (h ++ [e] = a ++ x :: b)%list ->
  (b = [] /\ h = a /\ e = x) \/ exists b', b = (b' ++ [e])%list /\ h = (a ++ x :: b')%list.
Proof.
  destruct (exists_last (l := x :: b)) as (l' & z & E); [discriminate|]. intros H.
  rewrite E, app_assoc in H. apply app_inj_tail in H as (H1 & H2); subst z.
  destruct l' as [|x' l']; cbn in E; injection E as -> ->.
  - left; rewrite app_nil_r in H1; auto.
  - right; exists l'; auto.
Qed.
Lemma absent_nil x : absent [] x.
Proof. intros a o l b H; destruct a; discriminate. Qed.
Lemma absent_snoc h e x : (forall o l, e = Make o l -> ~ In x l) -> absent h x -> absent (h ++ [e]) x.
Proof.
  intros He A a o' l' b H I. apply snoc_inj in H as [(-> & -> & ->)|(b' & -> & ->)]; [exfalso; eapply He; eauto|].
  destruct (A a o' l' b' eq_refl I) as (g & G1 & G2). exists g; split; [apply in_app_iff; auto|auto].
Qed.
Lemma made_by_snoc h e x o : (forall l, e = Gone l -> ~ In x l) -> made_by h x o -> made_by (h ++ [e]) x o.
Proof.
  intros He (h1 & l1 & h2 & -> & I1 & A1 & G1). exists h1, l1, (h2 ++ [e])%list. rewrite <- app_assoc; split; [reflexivity|].
  split; [exact I1|split; [exact A1|]]. intros l' I'. apply in_app_iff in I' as [I'|[->|[]]]; eauto.
Qed.
Lemma after_absent_made h x :
  (after h x = None -> absent h x) /\
  (forall M, after h x = Some M -> exists o, made_by h x o /\ config_h (defines o) = Some M).
Proof.
  induction h as [|e h IH] using rev_ind; [split; [intros _; apply absent_nil|discriminate]|].
  destruct IH as (IH1 & IH2). rewrite after_snoc.
  assert (Same : st_objs (event_step (after_all h) e) x = after h x -> (forall o l, e = Make o l -> ~ In x l) ->
    (forall l, e = Gone l -> ~ In x l) ->
    (st_objs (event_step (after_all h) e) x = None -> absent (h ++ [e]) x) /\
    (forall M, st_objs (event_step (after_all h) e) x = Some M -> exists o, made_by (h ++ [e]) x o /\ config_h (defines o) = Some M)).
  { intros -> N1 N2. split; [intros E; apply absent_snoc; auto|]. intros M E. destruct (IH2 M E) as (o1 & H1 & H2).
    exists o1; split; [apply made_by_snoc; auto|exact H2]. }
  destruct e as [o l|v|o v|l|v]; try (apply Same; [reflexivity|discriminate|discriminate]); cbn [event_step st_objs] in *.
  - fold (after h). destruct (config_ok o) as (M0 & E0 & _). rewrite E0, compile_spec. destruct (after h x) as [m|] eqn:EA.
    + split; [discriminate|]. intros M [= <-]. destruct (IH2 m eq_refl) as (o1 & H1 & H2).
      exists o1; split; [apply made_by_snoc; [discriminate|exact H1]|exact H2].
    + specialize (IH1 eq_refl). destruct (mem_obj x l) eqn:EM.
      * split; [discriminate|]. intros M [= <-]. exists o; split; [|exact E0].
        exists h, l, []. repeat split; [apply mem_obj_in; auto|exact IH1|intros ? []].
      * split; [|discriminate]. intros _. apply absent_snoc; [|exact IH1]. intros o' l' [= <- <-] I. apply mem_obj_in in I. congruence.
  - fold (after h) in *. destruct (mem_obj x l) eqn:EM.
    + split; [|discriminate]. intros _ a o' l' b H I. apply snoc_inj in H as [(_ & _ & [=])|(b' & -> & ->)].
      exists l; split; [apply in_app_iff; right; left; reflexivity|apply mem_obj_in; auto].
    + apply Same; [reflexivity|discriminate|]. intros l' [= <-] I. apply mem_obj_in in I; congruence.
Qed.
Lemma app_split {A} (a b c d : list A) x y : (a ++ x :: b = c ++ y :: d)%list ->
  (a = c /\ x = y /\ b = d) \/ (exists m, c = (a ++ x :: m)%list /\ b = (m ++ y :: d)%list) \/
  (exists m, a = (c ++ y :: m)%list /\ d = (m ++ x :: b)%list).
Proof.
  revert c; induction a as [|z a IH]; intros [|w c] H; cbn in H; injection H as H0 H.
  - auto.
  - right; left; exists c; subst; auto.
  - right; right; exists a; subst; auto.
  - subst w. destruct (IH c H) as [(-> & -> & ->)|[(m & -> & ->)|(m & -> & ->)]]; [auto|right; left; exists m; auto|right; right; exists m; auto].
Qed.
Lemma made_by_unique h x o o' : made_by h x o -> made_by h x o' -> o = o'.
Proof.
  intros (a & l & b & -> & I & A & G) (a' & l' & b' & H & I' & A' & G').
  apply app_split in H as [(_ & [= -> _] & _)|[(m & -> & ->)|(m & -> & ->)]]; [reflexivity| |].
  - destruct (A' a o l m eq_refl I) as (g & G1 & G2). exfalso; apply (G g); [apply in_app_iff; auto|auto].
  - destruct (A a' o' l' m eq_refl I') as (g & G1 & G2). exfalso; apply (G' g); [apply in_app_iff; auto|auto].
Qed.
(** The macros of an object file, by the options of the run that made it. *)
Lemma after_made h x M : after h x = Some M -> exists o, made_by h x o /\ macros_ok o M.
Proof.
  intros H. destruct (proj2 (after_absent_made h x) M H) as (o & H1 & H2). exists o; split; [exact H1|].
  destruct (config_ok o) as (M' & E & K). congruence.
Qed.

(** ** Archives and linking *)
Lemma archive_made h o l : (forall x, In x l -> exists M, after (h ++ [Make o l]) x = Some M).
Proof.
  intros x Hx. rewrite after_snoc. cbn [event_step st_objs]. fold (after h). destruct (config_ok o) as (M & -> & _). rewrite compile_spec.
  destruct (after h x); [eauto|]. apply mem_obj_in in Hx; rewrite Hx; eauto.
Qed.
(** Linking looks only at the symbols. *)
Definition data (m : obj * list string) : list sym * list sym := (defs (fst m) (snd m), refs (fst m) (snd m)).
Definition needs (needed have : list sym) (d : list sym * list sym) : bool :=
  existsb (fun s => mem_sym s needed && negb (mem_sym s have)) (fst d).
Fixpoint loadD (fuel : nat) (md mr : list sym) (ar loaded : list (list sym * list sym)) : list (list sym * list sym) :=
  match fuel with
  | O => loaded
  | S fuel =>
    match find (needs (mr ++ concat (map snd loaded)) (md ++ concat (map fst loaded)))%list ar with
    | None => loaded
    | Some m => loadD fuel md mr ar (loaded ++ [m])%list
    end
  end.
Definition linkD (md mr : list sym) (ar : list (list sym * list sym)) (libs : list sym) : bool :=
  let l := loadD (List.length ar) md mr ar [] in
  forallb (fun s => mem_sym s (md ++ concat (map fst l) ++ libs)) (mr ++ concat (map snd l))%list
  && nodup_sym (md ++ concat (map fst l))%list.
Lemma find_map {A B} (g : A -> B) (f : B -> bool) (h : A -> bool) l :
  (forall a, h a = f (g a)) -> find f (map g l) = option_map g (find h l).
Proof. intros E; induction l as [|a l IH]; cbn; [auto|]. rewrite E. destruct (f (g a)); auto. Qed.
Lemma load_map fuel md mr ar loaded :
  loadD fuel md mr (map data ar) (map data loaded) = map data (load fuel md mr ar loaded).
Proof.
  revert loaded; induction fuel as [|fuel IH]; intros loaded; cbn; [auto|].
  rewrite !map_map. cbn [data fst snd].
  rewrite (find_map data _ (defines_some (mr ++ all_refs loaded)%list (md ++ all_defs loaded)%list)) by reflexivity.
  destruct (find _ ar) as [m|]; cbn [option_map]; [|auto]. rewrite <- IH, map_app. reflexivity.
Qed.
Lemma link_linkD md mr ar libs : (exists l, link md mr ar libs = Some l) <-> linkD md mr (map data ar) libs = true.
Proof.
  unfold link, linkD. rewrite map_length. pose proof (load_map (List.length ar) md mr ar []) as E. cbn [map] in E. rewrite E.
  rewrite !map_map. cbn [data fst snd]. fold (all_defs (load (List.length ar) md mr ar [])). fold (all_refs (load (List.length ar) md mr ar [])).
  destruct (_ && _); split; intros H; try discriminate; eauto; destruct H; discriminate.
Qed.

Definition mac (fs : files) (x : obj) : list string := match fs x with Some M => M | None => [] end.
Lemma archive_mac fs l : (forall x, In x l -> exists M, fs x = Some M) ->
  archive_of fs l = Some (map (fun x => (x, mac fs x)) l).
Proof.
  induction l as [|x l IH]; intros H; cbn; [auto|].
  rewrite IH by (intros; apply H; right; auto). destruct (H x) as (M & E); [left; auto|].
  replace (mac fs x) with M by (unfold mac; rewrite E; reflexivity). rewrite E; reflexivity.
Qed.
Inductive okind := KPlain | KFast | KFastShake.
Lemma objs_eq v o : lib_objs v o =
  match impl_named o, gen_named o with
  | AVX2, GenSHAKE => [OFrodo v; OUtil; ORandom; OAes; OAesC; OAesNI; OFips202; OFips202x4; OKeccak4x]
  | AVX2, GenAES => [OFrodo v; OUtil; ORandom; OAes; OAesC; OAesNI; OFips202]
  | _, _ => [OFrodo v; OUtil; ORandom; OAes; OAesC; OFips202]
  end /\ kat_objs v o =
  match impl_named o, gen_named o with
  | AVX2, GenSHAKE => [OFrodo v; OUtil; OAes; OAesC; OAesNI; OFips202; OFips202x4; OKeccak4x]
  | AVX2, GenAES => [OFrodo v; OUtil; OAes; OAesC; OAesNI; OFips202]
  | _, _ => [OFrodo v; OUtil; OAes; OAesC; OFips202]
  end.
Proof.
  unfold lib_objs, kat_objs, AES_NI_OBJS, SHAKEx4_OBJS, gen_named. rewrite use_opt_level.
  destruct (impl_named o); cbn; try (split; reflexivity). destruct (GENERATION_A o =? "SHAKE128"); split; reflexivity.
Qed.
Lemma in_prog_objs p v o : In (OFrodo v) (prog_objs p v o) /\ In OAes (prog_objs p v o).
Proof. destruct (objs_eq v o) as (E1 & E2). destruct p; cbn [prog_objs]; rewrite ?E1, ?E2; destruct (impl_named o), (gen_named o); cbn; auto 10. Qed.


(** ** The archive for the KATs *)
Fixpoint ar_name (l : list obj) (x : obj) : list obj :=
  match l with [] => [x] | y :: l => if obj_eq_dec y x then x :: l else y :: ar_name l x end.
Definition ar_names (l new : list obj) : list obj := fold_left ar_name new l.
(** The members it can have, and their order. *)
Definition shapes (v : variant) : list (list obj) :=
  let b := [OFrodo v; OUtil; OAes; OAesC] in
  [ b ++ [OFips202]; b ++ [OFips202; OAesNI]; b ++ [OAesNI; OFips202];
    b ++ [OFips202; OAesNI; OFips202x4; OKeccak4x]; b ++ [OAesNI; OFips202; OFips202x4; OKeccak4x] ]%list.
Definition shape (v : variant) (l : list obj) : Prop := l = [] \/ In l (shapes v).
Lemma ar_members v o a f : shape v (map fst a) ->
  let r := ar_r a (map (fun x => (x, f x)) (kat_objs v o)) in
  let n := ar_names (map fst a) (kat_objs v o) in
  map fst r = n /\ map data r = map (fun x => data (x, f x)) n /\ In n (shapes v) /\
  (forall M, In (OFrodo v, M) r -> M = f (OFrodo v)) /\ (forall M, In (OAes, M) r -> M = f OAes) /\
  mem_obj OAesNI n = (mem_obj OAesNI (map fst a) || mem_obj OAesNI (kat_objs v o)) /\
  mem_obj OFips202x4 n = (mem_obj OFips202x4 (map fst a) || mem_obj OFips202x4 (kat_objs v o)).
Proof.
  rewrite (proj2 (objs_eq v o)). intros H.
  assert (D : exists k, match impl_named o, gen_named o with
     | AVX2, GenSHAKE => [OFrodo v; OUtil; OAes; OAesC; OAesNI; OFips202; OFips202x4; OKeccak4x]
     | AVX2, GenAES => [OFrodo v; OUtil; OAes; OAesC; OAesNI; OFips202]
     | _, _ => [OFrodo v; OUtil; OAes; OAesC; OFips202] end =
     match k with KPlain => [OFrodo v; OUtil; OAes; OAesC; OFips202] | KFast => [OFrodo v; OUtil; OAes; OAesC; OAesNI; OFips202]
     | KFastShake => [OFrodo v; OUtil; OAes; OAesC; OAesNI; OFips202; OFips202x4; OKeccak4x] end).
  { destruct (impl_named o), (gen_named o); [exists KPlain|exists KPlain|exists KPlain|exists KPlain|exists KFast|exists KFastShake]; reflexivity. }
  destruct D as (k & ->). clear o.
  destruct H as [H|H].
  - destruct a; [|discriminate]. destruct k, v; cbn; (repeat split); try tauto; intros M HM;
      repeat (destruct HM as [HM|HM]; [try discriminate; injection HM as <-; reflexivity|]); destruct HM.
  - unfold shapes in H; cbn [In app] in H. destruct H as [H|[H|[H|[H|[H|[]]]]]];
      repeat (destruct a as [|[? ?] a]; cbn [map fst] in H; [discriminate H|]; injection H as <- H);
      (destruct a as [|[? ?] a]; cbn [map fst] in H; [|discriminate H]); clear H;
      destruct k, v; cbn; (repeat split); try tauto; intros M HM;
      repeat (destruct HM as [HM|HM]; [try discriminate; injection HM as <-; reflexivity|]); destruct HM.
Qed.

Lemma gen_refs_eq o M : macros_ok o M -> gen_refs M =
  match gen_named o with
  | GenAES => if own_aes o then [s_AES128_load_schedule; s_AES128_ECB_enc_sch; s_AES128_free_schedule]
              else [s_EVP_CIPHER_CTX_new; s_handleErrors; s_EVP_EncryptInit_ex; s_EVP_aes_128_ecb; s_EVP_EncryptUpdate; s_AES128_free_schedule]
  | GenSHAKE => match impl_named o with AVX2 => [s_shake128_4x] | _ => [s_shake128] end
  end.
Proof.
  intros [H1 H2 H3 H4 H5]. unfold gen_refs. rewrite H1, H2, H4, H5.
  destruct (gen_named o), (own_aes o), (impl_named o); reflexivity.
Qed.
Definition aes_data (own ni : bool) : list sym * list sym :=
  if own then ([s_AES128_load_schedule; s_AES128_ECB_enc_sch; s_AES128_free_schedule;
        s_AES256_load_schedule; s_AES256_ECB_enc_sch; s_AES256_free_schedule],
        if ni then [s_aes128_load_schedule_ni; s_aes128_enc_ni; s_aes256_load_schedule_ni; s_aes256_enc_ni]
        else [s_aes128_load_schedule_c; s_aes128_enc_c; s_aes256_load_schedule_c; s_aes256_enc_c])
  else ([s_handleErrors; s_AES128_free_schedule; s_AES256_free_schedule], [s_ERR_print_errors_fp; s_EVP_CIPHER_CTX_free]).
Lemma data_aes o M : macros_ok o M -> data (OAes, M) = aes_data (own_aes o) (match impl_named o with AVX2 => true | _ => false end).
Proof. intros [H1 H2 H3 H4 H5]. unfold data. cbn [fst snd defs refs]. rewrite H3, H5. destruct (own_aes o), (impl_named o); reflexivity. Qed.

(** All cases of the decision whether a program links. *)
Inductive gkind := GOwn | GEvp | GShake | GShake4.
Definition gk_refs (g : gkind) : list sym :=
  match g with
  | GOwn => [s_AES128_load_schedule; s_AES128_ECB_enc_sch; s_AES128_free_schedule]
  | GEvp => [s_EVP_CIPHER_CTX_new; s_handleErrors; s_EVP_EncryptInit_ex; s_EVP_aes_128_ecb; s_EVP_EncryptUpdate; s_AES128_free_schedule]
  | GShake => [s_shake128] | GShake4 => [s_shake128_4x]
  end.

Definition lib_shapes (v : variant) : list (list obj) :=
  [ [OFrodo v; OUtil; ORandom; OAes; OAesC; OFips202]; [OFrodo v; OUtil; ORandom; OAes; OAesC; OAesNI; OFips202];
    [OFrodo v; OUtil; ORandom; OAes; OAesC; OAesNI; OFips202; OFips202x4; OKeccak4x] ].
Definition evp_syms : list sym :=
  [s_EVP_CIPHER_CTX_new; s_EVP_CIPHER_CTX_free; s_EVP_EncryptInit_ex; s_EVP_EncryptUpdate; s_EVP_aes_128_ecb;
   s_EVP_aes_256_ecb; s_ERR_print_errors_fp].
Definition case_data (v : variant) (g : gkind) (own ni : bool) (x : obj) : list sym * list sym :=
  match x with
  | OFrodo _ => (defs (OFrodo v) [], ([s_randombytes; s_shake v; s_frodo_pack; s_frodo_unpack; s_ct_verify; s_ct_select; s_clear_bytes] ++ gk_refs g)%list)
  | OAes => aes_data own ni
  | x => data (x, [])
  end.
Definition case_link (p : program) (v : variant) (g : gkind) (own ni : bool) (names : list obj) (own_o : bool) : bool :=
  linkD (prog_defs p) (prog_refs p v (if own_o then [] else ["USE_OPENSSL"]))
    (map (case_data v g own ni) names) (if own_o then [] else evp_syms).
Definition case_cond (p : program) (g : gkind) (own ni fni fx4 own_o : bool) : bool :=
  match g with
  | GOwn => own && (negb ni || fni)
  | GEvp => negb own && negb own_o
  | GShake => true
  | GShake4 => fx4
  end && match p with TestKEM => true | TestKAT => Bool.eqb own_o own && (negb own_o || negb ni || fni) end.
Lemma case_link_cond p v g own ni names own_o :
  In names (match p with TestKEM => lib_shapes v | TestKAT => shapes v end) ->
  case_link p v g own ni names own_o = case_cond p g own ni (mem_obj OAesNI names) (mem_obj OFips202x4 names) own_o.
Proof.
  destruct p; intros H; unfold shapes, lib_shapes in H; cbn [In app] in H;
    [destruct H as [H|[H|[H|[]]]]|destruct H as [H|[H|[H|[H|[H|[]]]]]]]; subst names;
    destruct v, g, own, ni, own_o; vm_compute; reflexivity.
Qed.

Definition gkind_of (o : options) : gkind :=
  match gen_named o with
  | GenAES => if own_aes o then GOwn else GEvp
  | GenSHAKE => match impl_named o with AVX2 => GShake4 | _ => GShake end
  end.
Definition ni_of (o : options) : bool := match impl_named o with AVX2 => true | _ => false end.

(** ** Histories of the archives *)
Lemma archive_of_mac fs l new : archive_of fs l = Some new -> new = map (fun x => (x, mac fs x)) l.
Proof.
  revert new; induction l as [|x l IH]; intros new; cbn; [intros [= <-]; auto|].
  destruct (fs x) as [M|] eqn:E; [|discriminate]. destruct (archive_of fs l) as [a|]; [|discriminate]. intros [= <-].
  rewrite (IH a eq_refl). replace (mac fs x) with M by (unfold mac; rewrite E; reflexivity). reflexivity.
Qed.
Lemma kat_snoc h e v : kat_archive (h ++ [e]) v = st_dir (event_step (after_all h) e) v.
Proof. unfold kat_archive; rewrite after_all_snoc; reflexivity. Qed.
Lemma kat_shape h v a : kat_archive h v = Some a -> shape v (map fst a).
Proof.
  revert a; induction h as [|e h IH] using rev_ind; intros a; [discriminate|]. rewrite kat_snoc.
  unfold kat_archive in IH. destruct e as [o l|w|o w|l|w]; cbn [event_step st_dir]; try (apply IH).
  - unfold set_dir. destruct (variant_eq_dec w v); [intros [= <-]; left; reflexivity|apply IH].
  - destruct (st_dir (after_all h) w) as [b|] eqn:Eb; [|apply IH].
    destruct (archive_of _ _) as [new|] eqn:En; [|apply IH]. unfold set_dir. destruct (variant_eq_dec w v) as [->|]; [|apply IH].
    intros [= <-]. apply archive_of_mac in En. subst new. right.
    destruct (ar_members v o b (mac (st_objs (after_all h))) (IH b Eb)) as (-> & _ & H & _). exact H.
  - unfold set_dir. destruct (variant_eq_dec w v); [discriminate|apply IH].
Qed.
Lemma after_before h o p v : after (h ++ before_link o p v) = after (h ++ [Make o (prog_objs p v o)]).
Proof. unfold after, after_all. rewrite !fold_left_app. destruct p; reflexivity. Qed.
Lemma before_made h o p v x : In x (prog_objs p v o) -> exists M, after (h ++ before_link o p v) x = Some M.
Proof. rewrite after_before. apply archive_made. Qed.

(** The members a program is linked with. *)
Definition members (h : list event) (o : options) (p : program) (v : variant) : option archive :=
  let new := map (fun x => (x, mac (after (h ++ before_link o p v)) x)) (prog_objs p v o) in
  match p with
  | TestKEM => Some new
  | TestKAT => option_map (fun a => ar_r a new) (kat_archive h v)
  end.
Lemma build_eq h o p v : exists M, macros_ok o M /\
  build h o p v = match members h o p v with
                  | Some ar => link (prog_defs p) (prog_refs p v M) ar (openssl_syms o)
                  | None => None
                  end.
Proof.
  unfold build, members. destruct (config_ok o) as (M & -> & K). exists M; split; [exact K|]. destruct p.
  - change (lib_objs v o) with (prog_objs TestKEM v o). rewrite archive_mac by (apply before_made). reflexivity.
  - assert (E : kat_archive (h ++ before_link o TestKAT v) v =
      option_map (fun a => ar_r a (map (fun x => (x, mac (after (h ++ before_link o TestKAT v)) x)) (prog_objs TestKAT v o))) (kat_archive h v)).
    { pose proof (archive_mac (after (h ++ before_link o TestKAT v)) (prog_objs TestKAT v o) (before_made h o TestKAT v)) as EA.
      rewrite after_before in *. cbn [before_link prog_objs] in *.
      replace (h ++ [Make o (kat_objs v o); Kats o v])%list with ((h ++ [Make o (kat_objs v o)]) ++ [Kats o v])%list by (rewrite <- app_assoc; reflexivity).
      rewrite kat_snoc. cbn [event_step st_dir]. fold (after (h ++ [Make o (kat_objs v o)])). rewrite EA.
      change (st_dir (after_all (h ++ [Make o (kat_objs v o)])) v) with (kat_archive (h ++ [Make o (kat_objs v o)]) v).
      rewrite kat_snoc. cbn [event_step st_dir]. fold (kat_archive h v). destruct (kat_archive h v) as [a|] eqn:Ek; cbn [option_map].
      - unfold set_dir. destruct (variant_eq_dec v v); [reflexivity|contradiction].
      - change (st_dir (after_all (h ++ [Make o (kat_objs v o)])) v) with (kat_archive (h ++ [Make o (kat_objs v o)]) v).
        rewrite kat_snoc. exact Ek. }
    rewrite E. reflexivity.
Qed.
Lemma mem_map x a : mem_obj x (map fst a) = true <-> exists M : list string, In (x, M) a.
Proof.
  rewrite mem_obj_in, in_map_iff. split.
  - intros ((y & M) & <- & H); exists M; exact H.
  - intros (M & H); exists (x, M); auto.
Qed.
Lemma ni_in p v o : mem_obj OAesNI (prog_objs p v o) = true <-> impl_named o = AVX2.
Proof.
  destruct (objs_eq v o) as (E1 & E2). destruct p; cbn [prog_objs]; rewrite ?E1, ?E2;
    destruct (impl_named o), (gen_named o); cbn; split; congruence.
Qed.
Lemma x4_in p v o : mem_obj OFips202x4 (prog_objs p v o) = true <-> impl_named o = AVX2 /\ gen_named o = GenSHAKE.
Proof.
  destruct (objs_eq v o) as (E1 & E2). destruct p; cbn [prog_objs]; rewrite ?E1, ?E2;
    destruct (impl_named o), (gen_named o); cbn; intuition congruence.
Qed.
Lemma members_facts h o p v ar : members h o p v = Some ar ->
  let f := mac (after (h ++ before_link o p v)) in
  let n := map fst ar in
  map data ar = map (fun x => data (x, f x)) n /\ In n (match p with TestKEM => lib_shapes v | TestKAT => shapes v end) /\
  (forall M, In (OFrodo v, M) ar -> M = f (OFrodo v)) /\ (forall M, In (OAes, M) ar -> M = f OAes) /\
  (mem_obj OAesNI n = true <-> impl_named o = AVX2 \/ left h p v OAesNI) /\
  (mem_obj OFips202x4 n = true <-> (impl_named o = AVX2 /\ gen_named o = GenSHAKE) \/ left h p v OFips202x4).
Proof.
  intros H f n. unfold members in H. fold f in H. destruct p.
  - apply (f_equal (fun x => match x with Some y => y | None => [] end)) in H. subst ar. assert (En : n = prog_objs TestKEM v o) by (subst n; rewrite map_map; apply map_id). rewrite En.
    split; [rewrite map_map; reflexivity|]. split.
    { cbn [prog_objs]. rewrite (proj1 (objs_eq v o)). unfold lib_shapes. destruct (impl_named o), (gen_named o); cbn; auto. }
    split; [intros M HM; apply in_map_iff in HM as (y & Ey & _); injection Ey as -> <-; reflexivity|].
    split; [intros M HM; apply in_map_iff in HM as (y & Ey & _); injection Ey as -> <-; reflexivity|].
    rewrite ni_in, x4_in. unfold left. intuition discriminate.
  - destruct (kat_archive h v) as [a|] eqn:Ek; [|discriminate].
    apply (f_equal (fun x => match x with Some y => y | None => [] end)) in H. cbn [option_map] in H. subst ar.
    destruct (ar_members v o a f (kat_shape h v a Ek)) as (E1 & E2 & E3 & E4 & E5 & E6 & E7).
    change (prog_objs TestKAT v o) with (kat_objs v o) in *. subst n. rewrite E1. split; [exact E2|]. split; [exact E3|]. split; [exact E4|]. split; [exact E5|].
    rewrite E6, E7, !orb_true_iff, !mem_map.
    change (kat_objs v o) with (prog_objs TestKAT v o). rewrite ni_in, x4_in. unfold left. rewrite Ek.
    assert (L : forall x, (TestKAT = TestKAT /\ exists a' M, Some a = Some a' /\ In (x, M) a') <-> exists M : list string, In (x, M) a).
    { intros x. split; [intros (_ & a' & M & [= <-] & H); eauto|intros (M & H); split; [reflexivity|eauto]]. }
    rewrite !L. tauto.
Qed.
Lemma cond_links h o p v ar ofr oa : members h o p v = Some ar ->
  (case_cond p (gkind_of ofr) (own_aes oa) (ni_of oa) (mem_obj OAesNI (map fst ar)) (mem_obj OFips202x4 (map fst ar)) (own_aes o) = true
   <-> links h p v o ofr oa).
Proof.
  intros H. destruct (members_facts _ _ _ _ _ H) as (_ & _ & _ & _ & N & X).
  unfold links. set (ni := impl_named o = AVX2 \/ left h p v OAesNI) in *. cbv zeta.
  set (x4 := (impl_named o = AVX2 /\ gen_named o = GenSHAKE) \/ left h p v OFips202x4) in *. clearbody ni x4.
  unfold case_cond, gkind_of, ni_of.
  assert (K : match p with TestKEM => True | TestKAT => exists a, kat_archive h v = Some a end).
  { destruct p; [trivial|]. unfold members in H. destruct (kat_archive h v); [eauto|discriminate]. }
  destruct (mem_obj OAesNI _), (mem_obj OFips202x4 _).
  all: destruct p, (gen_named ofr), (own_aes ofr), (own_aes oa), (own_aes o), (impl_named oa), (impl_named ofr);
    cbn; intuition (try discriminate; try congruence).
Qed.
Lemma build_case h o p v ar ofr oa : members h o p v = Some ar ->
  let h' := (h ++ before_link o p v)%list in
  made_by h' (OFrodo v) ofr -> made_by h' OAes oa ->
  ((exists l, build h o p v = Some l) <-> case_link p v (gkind_of ofr) (own_aes oa) (ni_of oa) (map fst ar) (own_aes o) = true).
Proof.
  intros Hm h' Hf Ha. destruct (build_eq h o p v) as (M & K & ->). rewrite Hm, link_linkD.
  destruct (members_facts _ _ _ _ _ Hm) as (ED & Sh & _). fold h' in ED. rewrite ED.
  destruct (in_prog_objs p v o) as (If & Ia).
  destruct (before_made h o p v _ If) as (Mf & Ef). destruct (before_made h o p v _ Ia) as (Ma & Ea). fold h' in Ef, Ea.
  destruct (after_made h' _ _ Ef) as (of' & Hf' & Kf). destruct (after_made h' _ _ Ea) as (oa' & Ha' & Ka).
  rewrite (made_by_unique _ _ _ _ Hf Hf'). rewrite (made_by_unique _ _ _ _ Ha Ha'). clear ofr oa Hf Ha.
  unfold case_link. change (openssl_syms o) with (if own_aes o then [] else evp_syms).
  replace (prog_refs p v (if own_aes o then [] else ["USE_OPENSSL"])) with (prog_refs p v M).
  2:{ destruct p; [reflexivity|]. cbn [prog_refs]. rewrite (mo_ossl _ _ K). destruct (own_aes o); reflexivity. }
  assert (Df : data (OFrodo v, mac (after h') (OFrodo v)) = case_data v (gkind_of of') (own_aes oa') (ni_of oa') (OFrodo v)).
  { unfold mac; rewrite Ef. unfold data; cbn [fst snd defs refs case_data]. rewrite (gen_refs_eq of') by exact Kf.
    unfold gkind_of. destruct (gen_named of'), (own_aes of'), (impl_named of'); reflexivity. }
  assert (Da : data (OAes, mac (after h') OAes) = case_data v (gkind_of of') (own_aes oa') (ni_of oa') OAes).
  { unfold mac; rewrite Ea. apply data_aes, Ka. }
  replace (map (fun x => data (x, mac (after h') x)) (map fst ar)) with (map (case_data v (gkind_of of') (own_aes oa') (ni_of oa')) (map fst ar)); [reflexivity|].
  apply map_ext_in. intros x Hx.
  assert (Hv : x = OFrodo v \/ match x with OFrodo _ => False | _ => True end).
  { clear - Hx Sh. destruct p; unfold shapes, lib_shapes in Sh; cbn [In app] in Sh;
      repeat (destruct Sh as [Sh|Sh]; [rewrite <- Sh in Hx; cbn in Hx; intuition (subst; auto)|]); destruct Sh. }
  destruct Hv as [->|Hv]; [symmetry; exact Df|]. destruct x; try destruct Hv; try reflexivity. symmetry; exact Da.
Qed.
(** A program links exactly when [links] says so. *)
Lemma build_links h o p v ofr oa :
  let h' := (h ++ before_link o p v)%list in
  made_by h' (OFrodo v) ofr -> made_by h' OAes oa ->
  ((exists l, build h o p v = Some l) <-> links h p v o ofr oa).
Proof.
  intros h' Hf Ha. destruct (members h o p v) as [ar|] eqn:Hm.
  - rewrite (build_case h o p v ar ofr oa Hm Hf Ha). rewrite <- (cond_links h o p v ar ofr oa Hm).
    rewrite case_link_cond by (apply (members_facts _ _ _ _ _ Hm)). reflexivity.
  - destruct (build_eq h o p v) as (M & _ & ->). rewrite Hm. split; [intros (l & H); discriminate|].
    unfold links. destruct p; [discriminate Hm|]. intros (_ & (a & Ea) & _). unfold members in Hm. rewrite Ea in Hm. discriminate.
Qed.

(** ** The code of a program that links *)
Lemma load_incl fuel md mr ar loaded m : In m (load fuel md mr ar loaded) -> In m ar \/ In m loaded.
Proof.
  revert loaded; induction fuel as [|fuel IH]; intros loaded; cbn; [auto|].
  destruct (find _ ar) as [m'|] eqn:E; [|auto]. intros H. destruct (IH _ H) as [H'|H']; [auto|].
  apply in_app_iff in H' as [H'|[<-|[]]]; [auto|]. left. apply find_some in E. tauto.
Qed.
Lemma mem_sym_in s l : mem_sym s l = true <-> In s l.
Proof.
  unfold mem_sym. rewrite existsb_exists. split.
  - intros (y & H & E). destruct (sym_eq_dec s y); [subst; auto|discriminate].
  - intros H; exists s; split; [auto|]. destruct (sym_eq_dec s s); auto.
Qed.
Lemma link_resolves md mr ar libs l s : link md mr ar libs = Some l -> In s (mr ++ all_refs l) ->
  ~ In s md -> ~ In s libs -> exists m, definer l s = Some m /\ In m ar /\ In s (defs (fst m) (snd m)).
Proof.
  intros H Hs H1 H2. unfold link in H. set (l0 := load _ _ _ _ _) in H.
  destruct (forallb _ _ && _) eqn:E; [|discriminate]. injection H as <-.
  apply andb_true_iff in E as (E & _). rewrite forallb_forall in E. specialize (E s Hs).
  apply mem_sym_in in E. apply in_app_iff in E as [E|E]; [contradiction|]. apply in_app_iff in E as [E|E]; [|contradiction].
  unfold all_defs in E. apply in_concat in E as (d & Hd & E). apply in_map_iff in Hd as (m & <- & Hm).
  unfold definer. destruct (find _ l0) as [m'|] eqn:Ef.
  - exists m'; split; [reflexivity|]. apply find_some in Ef as (F1 & F2). split; [|apply mem_sym_in; exact F2].
    destruct (load_incl _ _ _ _ _ _ F1) as [H|[]]; exact H.
  - exfalso. pose proof (find_none _ _ Ef m Hm) as F. cbn beta in F. apply (proj2 (mem_sym_in s _)) in E. congruence.
Qed.
Lemma definer_keypair v x M : In (s_keypair v) (defs x M) -> x = OFrodo v.
Proof.
  destruct x; cbn [defs]; intros H;
    try (destruct (negb (has M "USE_OPENSSL")));
    repeat (destruct H as [H|H]; [try discriminate; injection H as ->; reflexivity|]); destruct H.
Qed.
Lemma definer_aes x M : In s_AES128_ECB_enc_sch (defs x M) -> x = OAes.
Proof.
  destruct x; cbn [defs]; intros H; try reflexivity;
    repeat (destruct H as [H|H]; [discriminate|]); destruct H.
Qed.
Lemma build_code h o p v l en : build h o p v = Some l ->
  let h' := (h ++ before_link o p v)%list in
  exists C ofr oa, code_of en v l = Some C /\ made_by h' (OFrodo v) ofr /\ made_by h' OAes oa /\
    cP C = params_of v /\ cEn C = en /\ cImpl C = impl_named ofr /\ cGen C = gen_named ofr /\
    (cGen C = GenAES -> cAes C = aes_named oa).
Proof.
  intros H h'. destruct (in_prog_objs p v o) as (If & Ia).
  destruct (before_made h o p v _ If) as (Mf & Ef). destruct (before_made h o p v _ Ia) as (Ma & Ea). fold h' in Ef, Ea.
  destruct (after_made h' _ _ Ef) as (ofr & Hf & Kf). destruct (after_made h' _ _ Ea) as (oa & Ha & Ka).
  assert (L : links h p v o ofr oa) by (apply (build_links h o p v ofr oa Hf Ha); eauto).
  destruct (build_eq h o p v) as (M & K & E). rewrite E in H. destruct (members h o p v) as [ar|] eqn:Hm; [|discriminate].
  destruct (members_facts _ _ _ _ _ Hm) as (_ & _ & UF & UA & _). fold h' in UF, UA.
  assert (D : definer l (s_keypair v) = Some (OFrodo v, Mf)).
  { destruct (link_resolves _ _ _ _ _ (s_keypair v) H) as ((x & M') & D1 & D2 & D3).
    - apply in_app_iff; left. destruct p; left; reflexivity.
    - destruct p; cbn; intuition discriminate.
    - unfold openssl_syms. destruct (_ =? _); cbn; intuition discriminate.
    - cbn [fst snd] in D3. apply definer_keypair in D3. subst x. rewrite D1. rewrite (UF _ D2). unfold mac; rewrite Ef; reflexivity. }
  assert (DA : gen_named ofr = GenAES -> own_aes ofr = true -> definer l s_AES128_ECB_enc_sch = Some (OAes, Ma)).
  { intros G O. destruct (link_resolves _ _ _ _ _ s_AES128_ECB_enc_sch H) as ((x & M') & D1 & D2 & D3).
    - apply in_app_iff; right. unfold all_refs. apply in_concat. exists (refs (OFrodo v) Mf). split.
      + apply in_map_iff. exists (OFrodo v, Mf). split; [reflexivity|]. unfold definer in D. apply find_some in D. tauto.
      + cbn [refs]. apply in_app_iff; right. rewrite (gen_refs_eq ofr Mf Kf), G, O. right; left; reflexivity.
    - destruct p; cbn; intuition discriminate.
    - unfold openssl_syms. destruct (_ =? _); cbn; intuition discriminate.
    - cbn [fst snd] in D3. apply definer_aes in D3. subst x. rewrite D1. rewrite (UA _ D2). unfold mac; rewrite Ea; reflexivity. }
  unfold code_of. rewrite D. eexists. exists ofr, oa. split; [reflexivity|]. split; [exact Hf|]. split; [exact Ha|].
  cbn [cP cEn cImpl cGen cAes]. rewrite (mo_ref _ _ Kf), (mo_avx _ _ Kf), (mo_gen _ _ Kf), (mo_ossl _ _ Kf).
  split; [reflexivity|]. split; [reflexivity|].
  split; [destruct (impl_named ofr); reflexivity|]. split; [destruct (gen_named ofr); reflexivity|].
  destruct (gen_named ofr) eqn:G; [|discriminate]. intros _. unfold links in L. rewrite G in L. destruct L as ((L1 & _) & _).
  unfold aes_named. rewrite <- L1. destruct (own_aes ofr) eqn:O; cbn [negb]; [|reflexivity].
  rewrite (DA eq_refl eq_refl). rewrite (mo_ni _ _ Ka). destruct (impl_named oa); reflexivity.
Qed.

(** ** make clean *)
Lemma all_objs_all x : In x all_objs.
Proof. destruct x as [[]| | | | | | | |]; cbn; auto 15. Qed.
Lemma absent_app h g x : absent h x -> (forall o l, In (Make o l) g -> ~ In x l) -> absent (h ++ g) x.
Proof.
  revert h; induction g as [|e g IH]; intros h A H; [rewrite app_nil_r; exact A|].
  replace (h ++ e :: g)%list with ((h ++ [e]) ++ g)%list by (rewrite <- app_assoc; reflexivity).
  apply IH; [|intros o l I; apply (H o l); right; exact I].
  apply absent_snoc; [|exact A]. intros o l ->. apply (H o l); left; reflexivity.
Qed.
Lemma made_by_app h g x o : made_by h x o -> (forall l, In (Gone l) g -> ~ In x l) -> made_by (h ++ g) x o.
Proof.
  revert h; induction g as [|e g IH]; intros h A H; [rewrite app_nil_r; exact A|].
  replace (h ++ e :: g)%list with ((h ++ [e]) ++ g)%list by (rewrite <- app_assoc; reflexivity).
  apply IH; [|intros l I; apply (H l); right; exact I].
  apply made_by_snoc; [|exact A]. intros l ->. apply (H l); left; reflexivity.
Qed.
Lemma clean_absent h x : absent (h ++ make_clean) x.
Proof.
  unfold make_clean. replace (h ++ [Gone all_objs; Rmdir V640; Rmdir V976; Rmdir V1344])%list with
    ((h ++ [Gone all_objs]) ++ [Rmdir V640; Rmdir V976; Rmdir V1344])%list by (rewrite <- app_assoc; reflexivity).
  apply absent_app; [|cbn; intuition discriminate].
  intros a o l b H I. apply snoc_inj in H as [(_ & _ & [=])|(b' & -> & ->)].
  exists all_objs; split; [apply in_app_iff; right; left; reflexivity|apply all_objs_all].
Qed.
(** Everything is made with the options of the run that follows make clean. *)
Lemma made_here h g o x : absent h x -> (forall o' l, In (Make o' l) g -> o' = o) -> (forall l, ~ In (Gone l) g) ->
  (exists l, In (Make o l) g /\ In x l) -> made_by (h ++ g) x o.
Proof.
  revert h; induction g as [|e g IH]; intros h A HM HG (l & I1 & I2); [destruct I1|].
  replace (h ++ e :: g)%list with ((h ++ [e]) ++ g)%list by (rewrite <- app_assoc; reflexivity).
  assert (D : made_by (h ++ [e]) x o \/ absent (h ++ [e]) x /\ (forall o' l, e = Make o' l -> ~ In x l)).
  { destruct e as [o' l'|v|o' v|l'|v]; try (right; split; [apply absent_snoc; [discriminate|exact A]|discriminate]).
    - assert (o' = o) by (apply (HM o' l'); left; reflexivity). subst o'.
      destruct (in_dec obj_eq_dec x l') as [Il|Nl].
      + left. exists h, l', []. repeat split; [exact Il|exact A|intros ? []].
      + right. assert (N : forall o' l, Make o l' = Make o' l -> ~ In x l) by (intros ? ? [= <- <-]; exact Nl).
        split; [apply absent_snoc; [exact N|exact A]|exact N]. }
  destruct D as [D|(D & N)].
  - apply made_by_app; [exact D|]. intros l'' I. exfalso; apply (HG l''); right; exact I.
  - apply IH; [exact D|intros o' l' I; apply (HM o' l'); right; exact I|intros l' I; apply (HG l'); right; exact I|].
    destruct I1 as [->|I1]; [exfalso; apply (N o l eq_refl I2)|]. eauto.
Qed.
Lemma clean_made h o p v x : In x (prog_objs p v o) -> made_by ((h ++ make_clean ++ make_libs o) ++ before_link o p v) x o.
Proof.
  intros I. rewrite (app_assoc h), <- app_assoc. apply made_here; [apply clean_absent| | |].
  - intros o' l Hi. unfold make_libs in Hi. cbn in Hi. repeat (destruct Hi as [Hi|Hi]; [try discriminate; injection Hi as -> _; reflexivity|]).
    destruct p; cbn in Hi; repeat (destruct Hi as [Hi|Hi]; [try discriminate; injection Hi as -> _; reflexivity|]); destruct Hi.
  - intros l Hi. unfold make_libs in Hi. cbn in Hi. repeat (destruct Hi as [Hi|Hi]; [discriminate|]).
    destruct p; cbn in Hi; intuition discriminate.
  - exists (prog_objs p v o). split; [|exact I]. apply in_app_iff; right. destruct p; left; reflexivity.
Qed.
Lemma clean_dir h o v : exists a, kat_archive (h ++ make_clean ++ make_libs o) v = Some a.
Proof.
  unfold kat_archive, after_all. rewrite !fold_left_app. set (st := fold_left _ h _). unfold make_libs, make_clean. cbn.
  destruct v; cbn; eauto.
Qed.
Lemma links_same h p v o : (p = TestKAT -> exists a, kat_archive h v = Some a) -> links h p v o o o.
Proof.
  intros H. unfold links. assert (K : p = TestKEM \/ exists a, kat_archive h v = Some a) by (destruct p; auto).
  destruct (gen_named o) eqn:G, (impl_named o) eqn:I, (own_aes o), p; intuition (try discriminate; try congruence).
Qed.

(** ** Two variants in one program *)
Lemma nodup_sym_spec l : nodup_sym l = true -> NoDup l.
Proof.
  induction l as [|s l IH]; cbn; [constructor|]. intros H. apply andb_true_iff in H as (H1 & H2).
  constructor; [|auto]. intros I. apply mem_sym_in in I. rewrite I in H1; discriminate.
Qed.
Lemma NoDup_app_r {A} (l l' : list A) : NoDup (l ++ l') -> NoDup l'.
Proof. induction l; cbn; [auto|]. intros H; inversion H; auto. Qed.
Lemma NoDup_concat {A B} (f : A -> list B) l x y s : NoDup (concat (map f l)) -> In x l -> In y l -> In s (f x) -> In s (f y) -> x = y.
Proof.
  induction l as [|z l IH]; intros ND Ix Iy Sx Sy; [destruct Ix|]. cbn in ND.
  assert (Dis : forall w, In w l -> In s (f w) -> In s (f z) -> False).
  { intros w Iw S1 S2. revert ND S2. assert (Sc : In s (concat (map f l))) by (apply in_concat; exists (f w); split; [apply in_map; auto|auto]).
    generalize (f z). induction l0 as [|b l0 IHl]; cbn; [intros _ []|]. intros ND [->|I2].
    - inversion ND; subst. apply H1, in_app_iff; right; exact Sc.
    - inversion ND; subst; auto. }
  destruct Ix as [<-|Ix], Iy as [<-|Iy]; auto; try (exfalso; eauto; fail).
  apply NoDup_app_r in ND. eauto.
Qed.
Lemma link_two md mr ar libs v w :
  v <> w -> In (s_keypair v) mr \/ In (s_enc v) mr \/ In (s_dec v) mr -> In (s_keypair w) mr \/ In (s_enc w) mr \/ In (s_dec w) mr ->
  (forall u s, In s [s_keypair u; s_enc u; s_dec u] -> ~ In s md /\ ~ In s libs) ->
  link md mr ar libs = None.
Proof.
  intros N Hv Hw F. destruct (link md mr ar libs) as [l|] eqn:E; [exfalso|reflexivity].
  assert (G : forall u, In (s_keypair u) mr \/ In (s_enc u) mr \/ In (s_dec u) mr -> exists M, In (OFrodo u, M) l).
  { intros u Hu. assert (exists s, In s [s_keypair u; s_enc u; s_dec u] /\ In s mr) as (s & S1 & S2).
    { destruct Hu as [Hu|[Hu|Hu]]; eexists; (split; [|exact Hu]); cbn; auto. }
    destruct (F u s S1) as (F1 & F2).
    destruct (link_resolves _ _ _ _ _ s E) as ((x & M) & D1 & D2 & D3); [apply in_app_iff; auto|auto|auto|].
    assert (x = OFrodo u).
    { cbn [fst snd] in D3. clear - D3 S1. cbn in S1. destruct S1 as [<-|[<-|[<-|[]]]];
      (destruct x; cbn [defs] in D3; try (destruct (negb (has M "USE_OPENSSL")));
       repeat (destruct D3 as [D3|D3]; [try discriminate; injection D3 as ->; reflexivity|]); destruct D3). }
    subst x. exists M. unfold definer in D1. apply find_some in D1. tauto. }
  destruct (G v Hv) as (Mv & Iv). destruct (G w Hw) as (Mw & Iw).
  unfold link in E. set (l0 := load _ _ _ _ _) in E. destruct (forallb _ _ && _) eqn:EB; [|discriminate]. injection E as ->.
  apply andb_true_iff in EB as (_ & ND). apply nodup_sym_spec, NoDup_app_r in ND. unfold all_defs in ND.
  assert (X : (OFrodo v, Mv) = (OFrodo w, Mw)).
  { apply (NoDup_concat (fun m => defs (fst m) (snd m)) l _ _ s_CDF_TABLE ND Iv Iw); cbn; auto 10. }
  injection X as X _. contradiction.
Qed.
