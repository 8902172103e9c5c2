(** The tree of a member after a commit (RFC 9420, sections 7.3, 12.3 and
    12.4.2), by paths from the root. *)
From Verif Require Export SpecKeys.

(** One operation for each element of a list, in the order of the list *)
Inductive one_by_one {A} (step : ratchetTree -> A -> ratchetTree -> Prop) : ratchetTree -> list A -> ratchetTree -> Prop :=
| none_left t : one_by_one step t [] t
| one_more t x t1 l t' : step t x t1 -> one_by_one step t1 l t' -> one_by_one step t (x :: l) t'.

(** An update replaces a leaf and blanks the nodes above it. *)
Definition updated (t : ratchetTree) (u : N * leafNode) (t' : ratchetTree) : Prop :=
  exists k, shaped k t /\ replaced k t t' (fst u) (Some (NLeaf (snd u))).
(** A removal blanks a leaf and the nodes above it, and cuts the tree. *)
Definition removed (t : ratchetTree) (li : N) (t' : ratchetTree) : Prop :=
  exists k t1, shaped k t /\ replaced k t t1 li None /\ truncated k t1 t'.
(** An addition puts a member at the leftmost blank leaf, in a tree of the
    double size if there is none. *)
Definition joined (t : ratchetTree) (l : leafNode) (t' : ratchetTree) : Prop :=
  exists k t0 li, leftmost_free t li /\ shaped k t0 /\ added k t0 t' li l /\
    (t0 = t \/ t0 = grown t /\ forall j, 2 * j < lenN t -> leaf_at t j <> None).

(** First the updates, then the removals, then the additions *)
Definition after_proposals (t : ratchetTree) (ps : list (proposal * N)) (t' : ratchetTree) : Prop :=
  exists t1 t2, one_by_one updated t (updatesOf ps) t1 /\ one_by_one removed t1 (removalsOf ps) t2 /\ one_by_one joined t2 (additionsOf ps) t'.

Section WithCrypto.
Context {C : crypto}.

(** What is checked of the leaf node and the keys of an update path of the leaf
    [li], with the tree [t] to which the proposals have been applied *)
Definition path_checked (cs : N) (groupID : bytes) (t : ratchetTree) (li : N) (up : updatePath) : Prop :=
  let l := up_leafNode up in
  ln_source l = 3 /\
  leaf_signed cs groupID li l /\
  (forall e, In e (ln_extensions l) -> In (ext_type e) (caps_extensions (ln_capabilities l))) /\
  (lists_once t -> listed_by_all t (cred_type (ln_credential l))) /\
  (exists m, leaf_at t (designated li) = Some m /\
     forall j l', leaf_at t j = Some l' -> ln_signatureKey l' <> ln_signatureKey m -> ln_signatureKey l' <> ln_signatureKey l) /\
  (forall key j l', In key (pathKeys up) -> leaf_at t j = Some l' -> ln_encryptionKey l' <> key).
End WithCrypto.

(** ** The tree that a Welcome brings (section 12.4.3.3) *)
(** The first ratchet_tree extension of the group information is the list of
    nodes [l]. *)
Definition brings_tree (gi : groupInfo) (l : list (option node)) : Prop :=
  exists pre post, gi_extensions gi = pre ++ mkExtension 2 (vecOf (opt enc_node) l) :: post /\ forall e, In e pre -> ext_type e <> 2.
