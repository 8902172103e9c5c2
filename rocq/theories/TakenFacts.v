(** Proofs about the credentials of the members (C122). *)
From Verif Require Export SpecTaken OwnLeafFacts.

Section WithCrypto.
Context {C : crypto}.
Theorem names_unchecked l l' o : renamed l l' ->
  leafNodeVerifySignature (vo_cipherSuite o) (vo_groupID o) (vo_leafIndex o) l = Ok true ->
  leafNodeVerifySignature (vo_cipherSuite o) (vo_groupID o) (vo_leafIndex o) l' = Ok true ->
  leafNodeVerify l' o = leafNodeVerify l o.
Proof. intros [H1 H2 H3 H4 H5 H6] S S'. unfold leafNodeVerify. now rewrite S, S', H1, H2, H3, H4, H5, H6. Qed.

Theorem names_kept g raw now ac c g' li i l l' : obtained g -> accepts_commit g raw now ac c g' -> fc_sender (ac_content ac) = SMember li ->
  leaf_at (gr_value g) i = Some l -> leaf_at (gr_value g') i = Some l' -> ln_credential l' <> ln_credential l ->
  removes g li c i \/ by_its_member g ac c i l'.
Proof.
  intros O A Hs Hl Hl' N. destruct (leaves_kept _ _ _ _ _ _ _ _ _ O A Hs Hl) as [K|[K|(m & B & K)]].
  - exfalso. apply N. congruence.
  - now left.
  - right. rewrite K in Hl'. assert (m = l') by congruence. now subst m.
Qed.
End WithCrypto.
