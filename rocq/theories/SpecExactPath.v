(** What decides whether a commit with an update path is accepted. *)
From Verif Require Export SpecExact SpecReads.

Section WithCrypto.
Context {C : crypto}.

(** The tree after the proposals of the commit [c] can be encoded, and nobody
    in it lists a type of credential twice. *)
Definition tame (g : group) (c : commit) : Prop :=
  forall li ps t, commits g li c ps -> after_proposals (gr_value g) ps t -> encodable t /\ lists_once t.

(** [t] is the tree after the proposals [ps], and [t'] the one with the update
    path [up] of the member [li], in which this member finds the commit secret
    [z]. *)
Record acceptable_path (g : group) (ps : list (proposal * N)) (li : N) (up : updatePath) (k : nat) (t t' : ratchetTree) (z : bytes) : Prop := {
  ap_tree : after_proposals (gr_value g) ps t;
  ap_shaped : shaped k t;
  ap_shaped' : shaped k t';
  ap_checked : path_checked (gc_cipherSuite (gr_context g)) (gc_groupID (gr_context g)) t li up;
  ap_merged : merged (gc_cipherSuite (gr_context g)) k t t' (designated li) up;
  ap_encodable : encodable t';
  ap_reads : reads_path (gc_cipherSuite (gr_context g)) k t'
    (next_context (gr_context g) (tree_hash (gc_cipherSuite (gr_context g)) k t' [] k []) (gc_confirmedTranscriptHash (gr_context g)))
    (designated li) (gr_myLeafIndex g) up (gr_privTree g) z
}.
End WithCrypto.
