(** Specification of tree hashes, parent hashes and update paths (RFC 9420,
    sections 4.1.2, 7.8 and 7.9), by paths from the root. *)
From Verif Require Export SpecTree SpecSchedule.

(** ** The node at a path, without the leaves of a set *)
Definition shownLeaf (k : nat) (t : ratchetTree) (exclude : list N) (p : path) : option leafNode :=
  if existsb (N.eqb (val p)) exclude then None
  else match at_path k t p with Some (NLeaf l) => Some l | _ => None end.
Definition shownParent (k : nat) (t : ratchetTree) (exclude : list N) (p : path) : option parentNode :=
  match at_path k t p with
  | Some (NParent n) =>
    Some (mkParentNode (pn_encryptionKey n) (pn_parentHash n)
            (filter (fun li => negb (existsb (N.eqb li) exclude)) (pn_unmergedLeaves n)))
  | _ => None
  end.

(** ** Tree hashes (section 7.8): [d] is the height of the node at [p]. *)
Section WithCrypto.
Context {C : crypto}.

Fixpoint tree_hash (cs : N) (k : nat) (t : ratchetTree) (exclude : list N) (d : nat) (p : path) : bytes :=
  answer (QHash (hashOf cs)
    (match d with
     | O => enc_leafHashInput (val p) (shownLeaf k t exclude p)
     | S d' => enc_parentHashTreeInput (shownParent k t exclude p)
                 (tree_hash cs k t exclude d' (p ++ [false])) (tree_hash cs k t exclude d' (p ++ [true]))
     end)).

(** The calls of the hash function *)
Fixpoint treeQueries (cs : N) (k : nat) (t : ratchetTree) (d : nat) (p : path) : list query :=
  match d with
  | O => [QHash (hashOf cs) (enc_leafHashInput (val p) (shownLeaf k t [] p))]
  | S d' =>
    QHash (hashOf cs) (enc_parentHashTreeInput (shownParent k t [] p)
             (tree_hash cs k t [] d' (p ++ [false])) (tree_hash cs k t [] d' (p ++ [true]))) ::
    treeQueries cs k t d' (p ++ [false]) ++ treeQueries cs k t d' (p ++ [true])
  end.
Definition rootQueries (cs : N) (k : nat) (t : ratchetTree) : list query := treeQueries cs k t k [].

(** ** Parent hashes (section 7.9) *)
Definition parent_hash (cs : N) (key parentHash siblingHash : bytes) : bytes :=
  answer (QHash (hashOf cs) (enc_parentHashInput key parentHash siblingHash)).

(** ** Filtered direct paths (section 4.1.2) *)
(** No node at [p] or below *)
Fixpoint blank_below (k : nat) (t : ratchetTree) (d : nat) (p : path) : bool :=
  match at_path k t p with
  | Some _ => false
  | None => match d with
            | O => true
            | S d' => blank_below k t d' (p ++ [false]) && blank_below k t d' (p ++ [true])
            end
  end.
(** The nodes above [p], each with its child that is not above or at [p], when
    there is a node below this child *)
Definition filtered (k : nat) (t : ratchetTree) (p : path) : list (path * path) :=
  filter (fun ac => negb (blank_below k t (k - length (snd ac)) (snd ac))) (combine (proper_ancestors p) (siblings_up p)).

(** Along the filtered direct path, upwards: the nodes have the keys of the
    update path and no unmerged leaves, and [h], the parent hash of the node
    before, is that of the next node with the tree hash on the other side. *)
Fixpoint linked (cs : N) (k : nat) (t : ratchetTree) (l : list (path * path)) (nodes : list updatePathNode) (h : bytes) : Prop :=
  match l, nodes with
  | [], [] => h = []
  | (a, s) :: l', u :: nodes' =>
    exists h', at_path k t a = Some (NParent (mkParentNode (upn_encryptionKey u) h' [])) /\
               h = parent_hash cs (upn_encryptionKey u) h' (tree_hash cs k t [] (k - length s) s) /\
               linked cs k t l' nodes' h'
  | _, _ => False
  end.

(** [t'] is [t] with the update path [up] of the leaf [li]. *)
Definition merged (cs : N) (k : nat) (t t' : ratchetTree) (li : N) (up : updatePath) : Prop :=
  full k t' /\ li < leaf_count k /\
  at_path k t' (leafPath k li) = Some (NLeaf (up_leafNode up)) /\
  linked cs k t' (filtered k t (leafPath k li)) (up_nodes up) (ln_parentHash (up_leafNode up)) /\
  (forall a, above a (leafPath k li) -> ~ In a (map fst (filtered k t (leafPath k li))) -> at_path k t' a = None) /\
  (forall p, in_tree k p -> p <> leafPath k li -> ~ above p (leafPath k li) -> at_path k t' p = at_path k t p).

(** The nodes are values of the Go types (see WellFormed.v). *)
Definition wf_nodes (t : ratchetTree) : Prop := Forall wf_optionalNode t.
(** All nodes can be encoded: no vector is of 2^30 bytes or more. *)
Definition encodable (t : ratchetTree) : Prop := forall n, In (Some n) t -> exists e, putNode n = Ok e.
Definition encodable_path (up : updatePath) : Prop := Forall (fun u => lenN (upn_encryptionKey u) < 2 ^ 30) (up_nodes up).

(** ** Histories of trees: a heap of nodes and a tree in it, changed by the
    operations on trees *)
Inductive tree_step : heap * ptree -> heap * ptree -> Prop :=
| step_add h t l s : addH h t l = Ok s -> tree_step (h, t) s
| step_update h t li l s : updateH h t li l = Ok s -> tree_step (h, t) s
| step_remove h t li t' : Tree.remove t li = Ok t' -> tree_step (h, t) (h, t')
| step_apply h t props senders s : applyH h t props senders = Ok s -> tree_step (h, t) s
| step_merge cs h t li up s : mergeUpdatePathH cs h t li up = Ok s -> tree_step (h, t) s.
Inductive tree_steps : heap * ptree -> heap * ptree -> Prop :=
| steps_none s : tree_steps s s
| steps_more s1 s2 s3 : tree_step s1 s2 -> tree_steps s2 s3 -> tree_steps s1 s3.
End WithCrypto.
