(** Proofs about extensions of one type (C119). *)
From Verif Require Export SpecTwice ModelFacts.
From Coq Require Import Lia.

Section WithCrypto.
Context {C : crypto}.
Theorem package_extensions k k' ctx : same_package k k' -> keyPackageVerifySignature k = Ok true -> keyPackageVerifySignature k' = Ok true ->
  keyPackageVerify k' ctx = keyPackageVerify k ctx.
Proof. intros [H1 H2 H3 H4] S S'. unfold keyPackageVerify. now rewrite H1, H2, H3, H4, S, S'. Qed.

Lemma forallb_types (f : N -> bool) l l' : (forall ty, In ty (map ext_type l') <-> In ty (map ext_type l)) ->
  forallb (fun e => f (ext_type e)) l' = forallb (fun e => f (ext_type e)) l.
Proof.
  intros H. assert (X : forall m m', (forall ty, In ty (map ext_type m') -> In ty (map ext_type m)) ->
    forallb (fun e => f (ext_type e)) m = true -> forallb (fun e => f (ext_type e)) m' = true).
  { intros m m' I F. rewrite forallb_forall in *. intros e He. apply (in_map ext_type), I, in_map_iff in He as (e0 & <- & He). now apply F. }
  destruct (forallb _ l) eqn:E; [apply (X l); [apply H|exact E]|]. destruct (forallb _ l') eqn:E'; [|reflexivity]. rewrite <- E. symmetry. apply (X l'); [apply H|exact E'].
Qed.
Theorem leaf_extensions l l' o : same_leaf l l' -> (forall ty, In ty (map ext_type (ln_extensions l')) <-> In ty (map ext_type (ln_extensions l))) ->
  leafNodeVerifySignature (vo_cipherSuite o) (vo_groupID o) (vo_leafIndex o) l = Ok true ->
  leafNodeVerifySignature (vo_cipherSuite o) (vo_groupID o) (vo_leafIndex o) l' = Ok true ->
  leafNodeVerify l' o = leafNodeVerify l o.
Proof.
  intros [H1 H2 H3 H4 H5] T S S'. unfold leafNodeVerify. rewrite S, S', H1, H2, H3, H4, H5.
  now rewrite (forallb_types (fun ty => memN ty (caps_extensions (ln_capabilities l))) _ _ T).
Qed.

Lemma find_first exts more ty raw : findExtensionData exts ty = Some raw -> findExtensionData (exts ++ more) ty = Some raw.
Proof.
  unfold findExtensionData. induction exts as [|e exts IH]; cbn; [discriminate|]. destruct (ext_type e =? ty); [auto|exact IH].
Qed.
Theorem later_extensions w w' kpp s now psk gi gi' more g : w_cipherSuite w' = w_cipherSuite w ->
  extractPSKSecret (w_cipherSuite w) (gs_psks s) [] = Ok psk ->
  decryptGroupInfo w (gs_joinerSecret s) psk = Ok gi -> decryptGroupInfo w' (gs_joinerSecret s) psk = Ok gi' ->
  same_info gi gi' -> gi_extensions gi' = gi_extensions gi ++ more ->
  (forall key, groupInfoVerifySignature gi key = Ok true -> groupInfoVerifySignature gi' key = Ok true) ->
  groupFromSecrets w kpp s None [] now = Ok g -> groupFromSecrets w' kpp s None [] now = Ok g.
Proof.
  intros Ec Ek Ed Ed' [I1 I2 I3] Ex Sg H. unfold groupFromSecrets in *. rewrite Ec, Ek in *. cbn [rbind] in *. rewrite Ed in H. rewrite Ed'. cbn [rbind] in *. cbv zeta in *.
  rewrite Ex. destruct (findExtensionData (gi_extensions gi) 2) as [raw|] eqn:Ef; [|discriminate]. rewrite (find_first _ _ _ _ Ef).
  apply rbind_ok in H as (t & Ht & H). rewrite Ht. cbn [rbind]. rewrite I3. apply rbind_ok in H as (o & Ho & H). rewrite Ho. cbn [rbind].
  destruct o as [signer|]; [|discriminate]. apply rbind_ok in H as (sg & Hs & H). destruct sg; [|discriminate]. rewrite (Sg _ Hs). cbn [rbind guard] in *.
  replace (groupInfoVerifyConfirmationTag gi' (gs_joinerSecret s) psk) with (groupInfoVerifyConfirmationTag gi (gs_joinerSecret s) psk)
    by (unfold groupInfoVerifyConfirmationTag; now rewrite I1, I2).
  rewrite I1, I2. exact H.
Qed.
End WithCrypto.
