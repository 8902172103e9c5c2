(** What members say they support, and what is used (sections 7.2, 7.3 and 11.1). *)
From Verif Require Export SpecCommitTree SpecWire.

(** Every leaf lists the types of its extensions. *)
Definition leaf_lists_extensions (l : leafNode) : Prop :=
  forall e, In e (ln_extensions l) -> In (ext_type e) (caps_extensions (ln_capabilities l)).
Definition extensions_listed (t : ratchetTree) : Prop := forall li l, leaf_at t li = Some l -> leaf_lists_extensions l.

(** The leaves that the proposals bring *)
Definition brought (ps : list (proposal * N)) (l : leafNode) : Prop := In l (additionsOf ps) \/ exists s, In (s, l) (updatesOf ps).

(** The required_capabilities extension of a group context: section 11.1 *)
Record requiredCapabilities := mkRequired { rq_extensions : list N; rq_proposals : list N; rq_credentials : list N }.
Definition enc_required (r : requiredCapabilities) : bytes :=
  vecOf (num 2) (rq_extensions r) ++ vecOf (num 2) (rq_proposals r) ++ vecOf (num 2) (rq_credentials r).
Definition requires (ctx : groupContext) (r : requiredCapabilities) : Prop := In (mkExtension 3 (enc_required r)) (gc_extensions ctx).
Definition has_capabilities (r : requiredCapabilities) (l : leafNode) : Prop :=
  incl (rq_extensions r) (caps_extensions (ln_capabilities l)) /\ incl (rq_proposals r) (caps_proposals (ln_capabilities l)) /\
  incl (rq_credentials r) (caps_credentials (ln_capabilities l)).
