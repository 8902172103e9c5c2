(** Messages that a member has to accept (RFC 9420, sections 6, 12.2 and
    12.4.2), with the limits of the code on their size. *)
From Verif Require Export SpecHold.

Section WithCrypto.
Context {C : crypto}.

(** The bytes of a message with the content [ac], made with the secrets of the
    group *)
Inductive made (g : group) (raw : bytes) : authenticatedContent -> Prop :=
| made_public c a :
    raw = enc_mlsMessage (MPublic (mkPublicMessage c a (membership_tag (gr_context g) (gr_epochSecret g) c a))) ->
    made g raw (mkAuthenticatedContent 1 c a)
| made_private c a k sd padding m :
    shaped k (gr_value g) -> designated (sd_leafIndex sd) < leaf_count k -> wf_senderData sd ->
    protects (gr_context g) (gr_epochSecret g) (leafPath k (designated (sd_leafIndex sd))) sd c a padding m ->
    raw = enc_mlsMessage (MPrivate m) ->
    made g raw (mkAuthenticatedContent 2 c a).

(** A message to this group.  The size of it, and of its content together with
    the group context, is far from the limit of the code, 2^30 - 1. *)
Record delivered (g : group) (raw : bytes) (ac : authenticatedContent) : Prop := {
  dl_made : made g raw ac;
  dl_wf : wf_authenticatedContent ac;
  dl_authentic : authentic g ac;
  dl_size : lenN (enc_authenticatedContentTBM (ac_wireFormat ac) (ac_content ac) (gr_context g) (ac_auth ac)) < 2 ^ 27;
  dl_raw : lenN raw < 2 ^ 27
}.

(** A commit [c] of the member [li] that stands for the proposals [ps] *)
Record valid_commit (g : group) (ac : authenticatedContent) (c : commit) (li : N) (ps : list (proposal * N)) : Prop := {
  vc_body : fc_body (ac_content ac) = BCommit c;
  vc_sender : fc_sender (ac_content ac) = SMember li;
  vc_proposals : commits g li c ps;
  vc_rule : proposal_rule ps li;
  vc_psks : psk_ids_encodable ps;
  vc_adds : forall k s, In (PAdd k, s) ps -> addable (gr_context g) k;
  vc_removes : forall r s, In (PRemove r, s) ps -> leaf_at (gr_value g) r <> None;
  vc_room : exists n, at_most (leaf_at (gr_value g)) n /\ n + lenN (additionsOf ps) <= 2 ^ 31;
  vc_path : c_path c = None -> ps <> [] /\ forall p s, In (p, s) ps -> ~ requires_path p
}.

(** [t], of height [k], is the tree after the proposals, and [t'] the one with
    the update path [up] of the leaf [li], whose path secrets are not encrypted
    to the leaves [new]. *)
Record valid_path (g : group) (ps : list (proposal * N)) (li : N) (up : updatePath) (k : nat) (t t' : ratchetTree) (new : list N) : Prop := {
  vp_tree : after_proposals (gr_value g) ps t;
  vp_shaped : shaped k t;
  vp_shaped' : shaped k t';
  vp_lists : lists_members_below k t;
  vp_once : lists_once t;
  vp_checked : path_checked (gc_cipherSuite (gr_context g)) (gc_groupID (gr_context g)) t li up;
  vp_secrets : exists commitSecret,
    update_path (gc_cipherSuite (gr_context g)) k t t' new
      (next_context (gr_context g) (tree_hash (gc_cipherSuite (gr_context g)) k t' [] k []) (gc_confirmedTranscriptHash (gr_context g)))
      (designated li) up commitSecret;
  vp_encodable : encodable t /\ encodable t' /\ encodable_path up
}.

(** The tree after the commit, [t'] *)
Definition valid_tree (g : group) (c : commit) (li : N) (ps : list (proposal * N)) (t' : ratchetTree) : Prop :=
  match c_path c with
  | None => after_proposals (gr_value g) ps t' /\ encodable t'
  | Some up => exists k t new, valid_path g ps li up k t t' new /\ follows_path g li k t new
  end.
End WithCrypto.
