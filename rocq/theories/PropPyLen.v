(** C58: the Python implementation and inputs of the wrong length. *)
From Verif Require Import CSem Params FrodoSpec FrodoFacts Kem KemProofs KemWp PropKem Py PyProofs PyKem PropPy.

Section Obj.
Variables (w : which) (g : genA) (X : frodo).
Hypothesis HO : py_object w g = PyOk X.
Let P := c_params w.
Let V : valid P := c_params_valid w.
Let OK : pyok X P g := object_ok w g X HO.

(** Encapsulation to a public key of another length raises AssertionError, whatever the random
    source does (also if it is never to be asked); to a public key of the right length it succeeds. *)
Theorem C58_encaps : forall rng pk,
  (zlen pk <> pkBytes P -> kem_encaps X rng pk = Raise AssertionError) /\
  (zlen pk = pkBytes P -> forall mu, bytestr (bytesMu P) mu -> rng (bytesMu P) = PyOk mu ->
     exists ct ss, kem_encaps X rng pk = PyOk (ct, ss) /\ zlen ct = ctBytes P /\ zlen ss = pCB P).
Proof.
  intros rng pk. pose proof (F_sizes P g V) as (HN & HD & HB & HCB & HDN & ENN & EbB & EbC & EbMu & Epk & Esk & Ect). split.
  - intros Hl. pose proof (v_N P V). assert (pD P * pN P <= 16 * 32768) by (apply Z.mul_le_mono_nonneg; lia).
    unfold kem_encaps. rewrite (ok_D _ _ _ OK), (ok_n _ _ _ OK), (ok_nbar _ _ _ OK), (ok_seedA _ _ _ OK).
    rewrite pydiv8 by lia. cbn [pybind]. replace (pyfeq _ _) with false; [reflexivity|]. symmetry. unfold pyfeq. cbn [fst snd]. apply Z.eqb_neq. lia.
  - intros Hl mu (Lm & Bm) Hr. rewrite (encaps_eq X P g V OK rng pk mu Hl Hr Lm). pose proof (Encaps_shape P g V pk mu) as H.
    destruct (Encaps P g pk mu) as [ct ss]. exists ct, ss. split; [reflexivity|]. split; apply H.
Qed.
(** Decapsulation with a secret key or a ciphertext of another length raises AssertionError; with both
    of the right length it succeeds. *)
Theorem C58_decaps : forall sk ct,
  (zlen sk <> skBytes P \/ zlen ct <> ctBytes P -> kem_decaps X sk ct = Raise AssertionError) /\
  (bytestr (skBytes P) sk -> zlen ct = ctBytes P -> exists ss, kem_decaps X sk ct = PyOk ss /\ zlen ss = pCB P).
Proof.
  intros sk ct. pose proof (F_sizes P g V) as (HN & HD & HB & HCB & HDN & ENN & EbB & EbC & EbMu & Epk & Esk & Ect). split.
  - intros Hl. pose proof (v_N P V). assert (pD P * pN P <= 16 * 32768) by (apply Z.mul_le_mono_nonneg; lia).
    unfold kem_decaps. rewrite (ok_D _ _ _ OK), (ok_n _ _ _ OK), (ok_nbar _ _ _ OK), (ok_mbar _ _ _ OK), (ok_ct _ _ _ OK), (ok_sk _ _ _ OK).
    destruct (Z.eqb_spec (zlen ct) (ctBytes P)) as [E|E]; [|reflexivity]. cbn [pyassert pybind]. rewrite !pydiv8 by lia. cbn [pybind].
    destruct (Z.eqb_spec (zlen sk) (skBytes P)) as [E'|E']; [exfalso; lia|reflexivity].
  - intros Hs Hc. destruct (C23_decaps_total w g X HO sk ct Hs Hc) as (ss & H1 & H2 & _). exists ss. split; assumption.
Qed.

(** [k] elements of a list from position [a] on, or as many as there are. *)
Definition cut (a k : Z) (l : list Z) : list Z := firstn (Z.to_nat k) (skipn (Z.to_nat a) l).

(** Key generation with a random source that does not return as many bytes as it was asked for (or raises
    an exception).  Only a string that does not even reach the end of s is refused; otherwise seedSE and z are
    what there is of them, and bytes beyond the requested ones are ignored. *)
Theorem C58_keygen_source : forall rng,
  (forall e, rng (2 * pCB P + 16) = Raise e -> kem_keygen X rng = Raise e) /\
  (forall r, bytes_ok r -> rng (2 * pCB P + 16) = PyOk r ->
     (zlen r < pCB P -> kem_keygen X rng = Raise AssertionError) /\
     (pCB P <= zlen r -> kem_keygen X rng =
        PyOk (KeyGen P g (cut 0 (pCB P) r) (cut (pCB P) (pCB P) r) (cut (2 * pCB P) 16 r)))).
Proof.
  intros rng. replace (2 * pCB P + 16) with (pCB P + pCB P + 16) by lia. split.
  - intros e Hr. unfold kem_keygen. rewrite (ok_s _ _ _ OK), (ok_seedSE _ _ _ OK), (ok_z _ _ _ OK). rewrite Hr. reflexivity.
  - intros r Or Hr. rewrite (keygen_any X P g V OK rng r Hr) by (apply inrange_zslice; exact Or).
    split; intros Hl; destruct (Z.leb_spec (pCB P) (zlen r)) as [E|E]; try lia; [reflexivity|].
    unfold cut. replace (2 * pCB P) with (pCB P + pCB P) by lia. reflexivity.
Qed.
(** The source returns the bytes of s only: no exception, and the key pair is the same but for s, whatever
    the bytes are. *)
Theorem C58_short_source_refuted : exists pk rest, forall rng r,
  bytestr (pCB P) r -> rng (2 * pCB P + 16) = PyOk r -> kem_keygen X rng = PyOk (pk, r ++ rest).
Proof.
  assert (K : forall s se z, KeyGen P g s se z = (fst (KeyGen P g [] se z), s ++ snd (KeyGen P g [] se z))) by reflexivity.
  exists (fst (KeyGen P g [] [] [])), (snd (KeyGen P g [] [] [])). intros rng r (Lr & Or) Hr.
  destruct (C58_keygen_source rng) as (_ & H). destruct (H r Or Hr) as (_ & H2). rewrite H2 by lia.
  assert (E1 : cut 0 (pCB P) r = r) by (unfold cut; change (Z.to_nat 0) with 0%nat; cbn [skipn]; apply firstn_all2; unfold zlen in Lr; lia).
  assert (E2 : forall a k, pCB P <= a -> cut a k r = []) by (intros a k Ha; unfold cut; rewrite skipn_all2 by (unfold zlen in Lr; lia); apply firstn_nil).
  pose proof (v_CB P V). rewrite E1, !E2 by lia. now rewrite K.
Qed.
(** Encapsulation with such a source: too few bytes raise IndexError; bytes beyond the requested ones
    are not cut off but go into the hash. *)
Theorem C58_encaps_source : forall rng pk, zlen pk = pkBytes P ->
  (forall e, rng (bytesMu P) = Raise e -> kem_encaps X rng pk = Raise e) /\
  (forall mu, rng (bytesMu P) = PyOk mu ->
     (zlen mu < bytesMu P -> kem_encaps X rng pk = Raise IndexError) /\
     (bytesMu P <= zlen mu -> kem_encaps X rng pk = PyOk (Encaps P g pk mu))).
Proof.
  intros rng pk Hl. split.
  - intros e Hr. pose proof (F_sizes P g V) as (HN & HD & HB & HCB & HDN & ENN & EbB & EbC & EbMu & Epk & Esk & Ect).
    pose proof (v_N P V). assert (pD P * pN P <= 16 * 32768) by (apply Z.mul_le_mono_nonneg; lia).
    unfold kem_encaps. rewrite (ok_D _ _ _ OK), (ok_n _ _ _ OK), (ok_nbar _ _ _ OK), (ok_seedA _ _ _ OK), (ok_mu _ _ _ OK).
    rewrite pydiv8 by lia. cbn [pybind]. rewrite pyassert_true by (unfold pyfeq; cbn [fst snd]; apply Z.eqb_eq; lia). cbn [pybind]. rewrite Hr. reflexivity.
  - intros mu Hr. split; intros Hm; [eapply encaps_short|eapply encaps_long]; eassumption.
Qed.
End Obj.
Print Assumptions C58_encaps.
Print Assumptions C58_decaps.
Print Assumptions C58_keygen_source.
Print Assumptions C58_short_source_refuted.
Print Assumptions C58_encaps_source.

(** The lengths: those of the API. *)
Example C58_hyps : exists X, py_object Frodo640 GenAES = PyOk X /\ zlen (zrep 9615 0) <> pkBytes (c_params Frodo640) /\
  zlen (zrep 9616 0) = pkBytes (c_params Frodo640) /\ pkBytes (c_params Frodo1344) = 21520 /\ skBytes (c_params Frodo976) = 31296 /\ ctBytes (c_params Frodo976) = 15744.
Proof. eexists. split; [vm_compute; reflexivity|]. rewrite !zlen_zrep by lia. repeat split; vm_compute; congruence. Qed.
(** A source that returns 16 bytes whatever it is asked for. *)
Example C58_source_hyps : exists X rng r, py_object Frodo640 GenAES = PyOk X /\ bytestr (pCB (c_params Frodo640)) r /\
  rng (2 * pCB (c_params Frodo640) + 16) = PyOk r /\ bytesMu (c_params Frodo640) <= zlen r /\ r <> zrep 16 0.
Proof.
  eexists. exists (fun _ => PyOk (ztab 16 (fun i => i + 1))), (ztab 16 (fun i => i + 1)). split; [vm_compute; reflexivity|].
  split; [split; [reflexivity|apply inrange_ztab; lia]|]. split; [reflexivity|]. split; vm_compute; discriminate.
Qed.
