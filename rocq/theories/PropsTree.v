(** Properties of ratchet trees: C12-C20. *)
From Verif Require Import TreeSamples.

(** ** C12 *)
Theorem C12_shape_is_kept_by_every_history :
  forall (C : crypto) s s', tree_steps s s' -> proper (fst s) (snd s) -> well_shaped (deref (fst s) (snd s)) ->
  proper (fst s') (snd s') /\ well_shaped (deref (fst s') (snd s')).
Proof. exact @history_shape. Qed.
Print Assumptions C12_shape_is_kept_by_every_history.

Example C12_example : proper treeHeap treeThree /\ shaped 2 (deref treeHeap treeThree) /\
  exists h1 t1 h2 t2 t3, @mergeUpdatePathH toy 1 treeHeap treeThree 0 sampleUp = Ok (h1, t1) /\
    applyH h1 t1 [PRemove 1; PAdd sampleKP; PAdd sampleKP] [0; 0; 0] = Ok (h2, t2) /\
    Tree.remove t2 2 = Ok t3 /\
    @tree_steps toy (treeHeap, treeThree) (h2, t3) /\ lenN t2 = 7 /\ lenN t3 = 7.
Proof.
  split; [exact treeThree_proper|]. split; [exact treeThree_shaped|].
  destruct (@mergeUpdatePathH toy 1 treeHeap treeThree 0 sampleUp) as [[h1 t1]| | |] eqn:E1;
    vm_compute in E1; try discriminate E1. injection E1 as E1 E2. exists h1, t1.
  destruct (applyH h1 t1 [PRemove 1; PAdd sampleKP; PAdd sampleKP] [0; 0; 0]) as [[h2 t2]| | |] eqn:E3;
    pose proof E3 as E4; rewrite <- E1, <- E2 in E4; vm_compute in E4; try discriminate E4. injection E4 as E4 E5.
  destruct (Tree.remove t2 2) as [t3| | |] eqn:E6; pose proof E6 as E7; rewrite <- E5 in E7; vm_compute in E7; try discriminate E7.
  injection E7 as E7. exists h2, t2, t3. split; [reflexivity|]. split; [reflexivity|]. split; [first [exact E6 | reflexivity]|]. split.
  - eapply steps_more; [eapply (step_merge 1 _ _ 0 sampleUp (h1, t1))|].
    + vm_compute. rewrite <- E1, <- E2. reflexivity.
    + eapply steps_more; [eapply step_apply; exact E3|]. eapply steps_more; [eapply step_remove; exact E6|]. constructor.
  - split; [rewrite <- E5; reflexivity|rewrite <- E7; reflexivity].
Qed.

(** ** C13 *)
Theorem C13_add_uses_the_leftmost_free_leaf :
  forall h t l, proper h t -> well_shaped (deref h t) ->
  (room (deref h t) ->
   exists k t0 li h' t', addH h t l = Ok (h', t') /\ leftmost_free (deref h t) li /\
     (t0 = deref h t /\ 2 * li < lenN t \/
      t0 = grown (deref h t) /\ forall j, 2 * j < lenN t -> leaf_at (deref h t) j <> None) /\
     shaped k t0 /\ added k t0 (deref h' t') li l /\ proper h' t') /\
  (~ room (deref h t) -> forall r, addH h t l <> Ok r).
Proof. exact addH_adds. Qed.
Print Assumptions C13_add_uses_the_leftmost_free_leaf.

Example C13_example : exists h' t', addH treeHeap treeThree (sampleLeaf "d" x04) = Ok (h', t') /\
  room (deref treeHeap treeThree) /\
  leaf_at (deref h' t') 3 = Some (sampleLeaf "d" x04) /\ lenN t' = 7 /\
  exists h2 t2, addH h' t' (sampleLeaf "e" x05) = Ok (h2, t2) /\ lenN t2 = 15 /\
    leaf_at (deref h2 t2) 4 = Some (sampleLeaf "e" x05).
Proof.
  eexists. eexists. split; [vm_compute; reflexivity|]. split; [left; reflexivity|]. split; [reflexivity|]. split; [reflexivity|].
  eexists. eexists. split; [vm_compute; reflexivity|]. split; reflexivity.
Qed.

(** ** C14 *)
Theorem C14_remove_blanks_the_leaf_and_its_direct_path_and_truncates :
  forall k h t li, proper h t -> shaped k (deref h t) ->
  (designated li < leaf_count k ->
   exists t1 t', Tree.remove t li = Ok t' /\ replaced k (deref h t) t1 (designated li) None /\
     truncated k t1 (deref h t') /\ proper h t') /\
  (leaf_count k <= designated li -> forall r, Tree.remove t li <> Ok r).
Proof. exact remove_removes. Qed.
Print Assumptions C14_remove_blanks_the_leaf_and_its_direct_path_and_truncates.

Theorem C14_other_members_keep_their_leaf :
  forall h t li t', proper h t -> well_shaped (deref h t) -> Tree.remove t li = Ok t' ->
  forall j, leaf_at (deref h t') j = if j =? designated li then None else leaf_at (deref h t) j.
Proof. exact remove_others. Qed.
Print Assumptions C14_other_members_keep_their_leaf.

Example C14_example :
  Tree.remove treeThree 2 = Ok [Some 0%nat; Some 1%nat; Some 2%nat] /\
  Tree.remove treeThree 0 = Ok [None; None; Some 2%nat; None; Some 3%nat; None; None] /\
  designated 2 < leaf_count 2.
Proof. split; [reflexivity|]. split; reflexivity. Qed.

(** ** C15 *)
Theorem C15_update_replaces_the_leaf_and_blanks_its_direct_path :
  forall k h t li l, proper h t -> shaped k (deref h t) ->
  (designated li < leaf_count k ->
   exists h' t', updateH h t li l = Ok (h', t') /\
     replaced k (deref h t) (deref h' t') (designated li) (Some (NLeaf l)) /\ proper h' t') /\
  (leaf_count k <= designated li -> forall r, updateH h t li l <> Ok r).
Proof. exact updateH_updates. Qed.
Print Assumptions C15_update_replaces_the_leaf_and_blanks_its_direct_path.

Example C15_example : exists h' t', updateH treeHeap treeThree 1 (sampleLeaf "B" x07) = Ok (h', t') /\
  leaf_at (deref h' t') 1 = Some (sampleLeaf "B" x07) /\ at_path 2 (deref h' t') [false] = None /\
  leaf_at (deref h' t') 0 = Some (sampleLeaf "a" x01).
Proof. eexists. eexists. split; [vm_compute; reflexivity|]. split; [reflexivity|]. split; reflexivity. Qed.

(** ** C16 *)
Theorem C16_members_after_a_proposal_list :
  forall h t l h' t', proper h t -> well_shaped (deref h t) ->
  NoDup (changedLeaves l) -> Forall (fun x => x < 2 ^ 31) (changedLeaves l) ->
  applyH h t (map fst l) (map snd l) = Ok (h', t') ->
  exists M, changed (leaf_at (deref h t)) l M /\ fills M (additionsOf l) (leaf_at (deref h' t')).
Proof. exact applyH_members. Qed.
Print Assumptions C16_members_after_a_proposal_list.

Theorem C16_a_valid_proposal_list_is_applied :
  forall h t l n, proper h t -> well_shaped (deref h t) ->
  NoDup (changedLeaves l) -> Forall (fun x => x < 2 ^ 31 /\ leaf_at (deref h t) x <> None) (changedLeaves l) ->
  at_most (leaf_at (deref h t)) n -> n + lenN (additionsOf l) <= 2 ^ 31 ->
  exists h' t', applyH h t (map fst l) (map snd l) = Ok (h', t') /\ proper h' t'.
Proof. exact applyH_applies. Qed.
Print Assumptions C16_a_valid_proposal_list_is_applied.

Example C16_example :
  let l := [(PAdd sampleKP, 0); (PRemove 0, 1); (PAdd sampleKP, 0); (PUpdate (sampleLeaf "C" x07), 2)] in
  NoDup (changedLeaves l) /\
  exists h' t', applyH treeHeap treeThree (map fst l) (map snd l) = Ok (h', t') /\
    leaf_at (deref h' t') 0 = Some (sampleLeaf "alice" x08) /\
    leaf_at (deref h' t') 1 = Some (sampleLeaf "b" x02) /\
    leaf_at (deref h' t') 2 = Some (sampleLeaf "C" x07) /\
    leaf_at (deref h' t') 3 = Some (sampleLeaf "alice" x08) /\ lenN t' = 7.
Proof.
  split; [repeat (constructor; [cbn; lia|]); constructor|].
  eexists. eexists. split; [vm_compute; reflexivity|]. repeat split; reflexivity.
Qed.

(** ** C17 *)
Theorem C17_resolution_reaches_every_member_once :
  forall k t p, shaped k t -> lists_members_below k t -> no_repeats k t -> in_tree k p ->
  exists r, resolve t (number k p) = Ok r /\
    (forall x, In x r -> exists q n, in_tree k q /\ ancestor_or_self p q /\ x = number k q /\ at_path k t q = Some n) /\
    (forall li, li < leaf_count k -> leaf_at t li <> None -> ancestor_or_self p (leafPath k li) ->
       exists! i, exists x, nth_error r i = Some x /\ covers k t x li) /\
    (r = [] <-> forall q, in_tree k q -> ancestor_or_self p q -> at_path k t q = None).
Proof. exact resolve_reaches. Qed.
Print Assumptions C17_resolution_reaches_every_member_once.

Example C17_example :
  resolve (deref treeHeap treeThree) (number 2 []) = Ok [1; 2; 4] /\
  resolve (deref treeHeap treeThree) (number 2 [false]) = Ok [1; 2] /\
  strong_rule (deref treeHeap treeThree).
Proof. split; [reflexivity|]. split; [reflexivity|exact treeThree_strong]. Qed.

(** ** C18 *)
(** From an arbitrary tree following the rule, an addition can break the order. *)
Theorem C18_refuted :
  exists h t l h' t', proper h t /\ unmerged_rule (deref h t) /\ addH h t l = Ok (h', t') /\
    ~ unmerged_rule (deref h' t').
Proof.
  exists gapHeap, gapTree, (sampleLeaf "b" x02). destruct gapTree_add as (h & t & E & H). exists h, t.
  exact (conj gapTree_proper (conj gapTree_rule (conj E H))).
Qed.
Print Assumptions C18_refuted.

(** If no parent node has a blank leaf before one of its unmerged leaves, the
    rule is kept. *)
Theorem C18_unmerged_leaves_stay_well_formed_partial :
  forall (C : crypto) s s', tree_steps s s' -> proper (fst s) (snd s) -> strong_rule (deref (fst s) (snd s)) ->
  proper (fst s') (snd s') /\ strong_rule (deref (fst s') (snd s')).
Proof. exact @history_unmerged. Qed.
Print Assumptions C18_unmerged_leaves_stay_well_formed_partial.

Example C18_example : strong_rule (deref treeHeap treeThree) /\
  exists h t, addH treeHeap [Some 0%nat; None; Some 2%nat; Some 1%nat; Some 3%nat; None; None] (sampleLeaf "d" x04) = Ok (h, t) /\
    at_path 2 (deref h t) [] = Some (NParent (mkParentNode [x01] [x02] [1; 3])).
Proof. split; [exact treeThree_strong|]. eexists. eexists. split; [vm_compute; reflexivity|reflexivity]. Qed.

(** ** C19 *)
Theorem C19_the_tree_hash_commits_to_the_tree :
  forall (C : crypto) cs k1 t1 k2 t2 h, shaped k1 t1 -> shaped k2 t2 -> wf_nodes t1 -> wf_nodes t2 ->
  computeRootTreeHash cs t1 = Ok h -> computeRootTreeHash cs t2 = Ok h ->
  t1 = t2 \/ collide (rootQueries cs k1 t1) (rootQueries cs k2 t2).
Proof. exact @root_binding. Qed.
Print Assumptions C19_the_tree_hash_commits_to_the_tree.

Example C19_example : exists h1 h2, @computeRootTreeHash toy 1 (deref treeHeap treeThree) = Ok h1 /\
  @computeRootTreeHash toy 1 (deref gapHeap gapTree) = Ok h2 /\ bytes_eqb h1 h2 = false.
Proof. eexists. eexists. split; [vm_compute; reflexivity|]. split; [vm_compute; reflexivity|vm_compute; reflexivity]. Qed.

(** ** C20 *)
Theorem C20_an_accepted_update_path_is_linked :
  forall (C : crypto) cs k h t li up h' t', proper h t -> shaped k (deref h t) ->
  mergeUpdatePathH cs h t li up = Ok (h', t') ->
  proper h' t' /\ merged cs k (deref h t) (deref h' t') (designated li) up.
Proof. exact @mergeH_sound. Qed.
Print Assumptions C20_an_accepted_update_path_is_linked.

Theorem C20_a_linked_update_path_is_accepted :
  forall (C : crypto) cs d k h t li up v, crypto_ok C -> cipherSuiteDescriptions cs = Some d ->
  proper h t -> shaped k (deref h t) -> encodable (deref h t) -> encodable_path up ->
  merged cs k (deref h t) v (designated li) up ->
  exists h' t', mergeUpdatePathH cs h t li up = Ok (h', t') /\ deref h' t' = v.
Proof. exact @mergeH_complete. Qed.
Print Assumptions C20_a_linked_update_path_is_accepted.

Example C20_example : exists h' t', @mergeUpdatePathH toy 1 treeHeap treeThree 0 sampleUp = Ok (h', t') /\
  option_map node_encryptionKey (at_path 2 (deref h' t') [false]) = Some (str "left key") /\
  option_map node_encryptionKey (at_path 2 (deref h' t') []) = Some (str "root key") /\
  is_ok (@mergeUpdatePathH toy 1 treeHeap treeThree 1 sampleUp) = false.
Proof. eexists. eexists. split; [vm_compute; reflexivity|]. split; [reflexivity|]. split; [reflexivity|vm_compute; reflexivity]. Qed.
