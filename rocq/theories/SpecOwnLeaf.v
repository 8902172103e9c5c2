(** Who changes the leaves of the tree. *)
From Verif Require Export SpecReference SpecCommitTree.

Section WithCrypto.
Context {C : crypto}.

(** The member at the leaf [i] signed [m] in this epoch: the signature verifies
    with the key of that leaf. *)
Definition signed_by_leaf (g : group) (i : N) (m : authenticatedContent) : Prop :=
  fc_groupID (ac_content m) = gc_groupID (gr_context g) /\ fc_epoch (ac_content m) = gc_epoch (gr_context g) /\
  exists l, leaf_at (gr_value g) i = Some l /\
    VerifyWithLabel (gc_cipherSuite (gr_context g)) (ln_signatureKey l) (str "FramedContentTBS")
      (enc_framedContentTBS (ac_wireFormat m) (ac_content m) (gr_context g)) (ad_signature (ac_auth m)).

(** The commit [c], which is the content of [ac], brings the leaf node [l'] that
    the member at the leaf [i] has signed for: in a path or an update of its own
    commit, or in an update proposal that the commit refers to. *)
Definition by_its_member (g : group) (ac : authenticatedContent) (c : commit) (i : N) (l' : leafNode) : Prop :=
  (signed_by_leaf g i ac /\ ((exists up, c_path c = Some up /\ up_leafNode up = l') \/ In (PorProposal (PUpdate l')) (c_proposals c))) \/
  exists m, signed_by_leaf g i m /\ fc_body (ac_content m) = BProposal (PUpdate l') /\
    In (PorReference (ProposalRef (gc_cipherSuite (gr_context g)) m)) (c_proposals c).

(** The commit of [li] removes the leaf [i], or adds the leaf node [l]. *)
Definition removes (g : group) (li : N) (c : commit) (i : N) : Prop :=
  exists r s, rightly_committed g li c (PRemove r) s /\ designated r = i.
Definition adds (g : group) (li : N) (c : commit) (l : leafNode) : Prop :=
  exists k s, rightly_committed g li c (PAdd k) s /\ kp_leafNode k = l.
End WithCrypto.
