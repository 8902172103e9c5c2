(** What decides whether a message is accepted. *)
From Verif Require Export SpecAccept.

Section WithCrypto.
Context {C : crypto}.

(** A content with the group context is far from the limit on sizes,
    2^30 - 1. *)
Definition modest (g : group) (ac : authenticatedContent) : Prop :=
  lenN (enc_authenticatedContentTBM (ac_wireFormat ac) (ac_content ac) (gr_context g) (ac_auth ac)) < 2 ^ 27.

(** If [raw] is a public message, its membership tag is right. *)
Definition tagged (g : group) (raw : bytes) : Prop :=
  forall m, unmarshal getMlsMessage raw = Ok (MPublic m) -> membership_tagged g m.

(** A commit [c] of the member [li] that stands for the proposals [ps]: as
    [valid_commit], but anything may be removed. *)
Record acceptable_commit (g : group) (ac : authenticatedContent) (c : commit) (li : N) (ps : list (proposal * N)) : Prop := {
  ac_body : fc_body (ac_content ac) = BCommit c;
  ac_sender : fc_sender (ac_content ac) = SMember li;
  ac_proposals : commits g li c ps;
  ac_rule : proposal_rule ps li;
  ac_psks : psk_ids_encodable ps;
  ac_adds : forall k s, In (PAdd k, s) ps -> addable (gr_context g) k;
  ac_path : c_path c = None -> ps <> [] /\ forall p s, In (p, s) ps -> ~ requires_path p
}.
End WithCrypto.
