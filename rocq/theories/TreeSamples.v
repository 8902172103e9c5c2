(** Concrete ratchet trees, for the examples next to the theorems about trees. *)
From Verif Require Export TreeStepFacts Samples Witness.

(** A decision procedure for shapes *)
Definition shapedb (k : nat) (t : ratchetTree) : bool :=
  (lenN t =? node_count k) &&
  forallb (fun i => match nth_error t i with
                    | Some (Some (NLeaf _)) => isLeaf (N.of_nat i)
                    | Some (Some (NParent _)) => negb (isLeaf (N.of_nat i))
                    | _ => true
                    end) (seq 0 (length t)).
Lemma shapedb_ok k t : fits k -> shapedb k t = true -> shaped k t.
Proof.
  intros Hk H. unfold shapedb in H. apply andb_true_iff in H. destruct H as [H1 H2]. apply N.eqb_eq in H1. split; [now split|].
  intros p n Hp Hn. rewrite forallb_forall in H2. unfold at_path in Hn.
  destruct (nth_error t (N.to_nat (number k p))) as [o|] eqn:E; [|discriminate]. subst o.
  assert (Hin : In (N.to_nat (number k p)) (seq 0 (length t))) by (apply in_seq; split; [lia|]; cbn; apply nth_error_Some; congruence).
  specialize (H2 _ Hin). rewrite E, N2Nat.id, (path_isLeaf k p Hp) in H2. unfold in_tree in Hp. destruct n; cbn.
  - now apply Nat.eqb_eq.
  - apply negb_true_iff, Nat.eqb_neq in H2. lia.
Qed.

(** A decision procedure for separate pointers *)
Definition pointersOf (t : ptree) : list nat := flat_map (fun o => match o with Some p => [p] | None => [] end) t.
Lemma proper_ok (h : heap) (t : ptree) : Forall (fun p => (p < length h)%nat) (pointersOf t) -> NoDup (pointersOf t) -> proper h t.
Proof.
  intros F Hn. split.
  - intros p Hp. rewrite Forall_forall in F. apply F. apply in_flat_map. exists (Some p). split; cbn; auto.
  - revert Hn. clear F. induction t as [|o t IH]; intros Hn i j p Hi Hj; [destruct i; discriminate|].
    assert (Hd : forall (m : nat), nth_error t m = Some (Some p) -> In p (pointersOf t)).
    { intros m Hm. apply in_flat_map. exists (Some p). split; [eapply nth_error_In; eauto|cbn; auto]. }
    assert (Hr : NoDup (pointersOf t)) by (cbn in Hn; destruct o; [inversion Hn; auto|auto]).
    destruct i as [|i], j as [|j]; cbn in Hi, Hj; auto.
    + injection Hi as ->. cbn in Hn. inversion Hn as [|? ? Hx]. exfalso. eauto.
    + injection Hj as ->. cbn in Hn. inversion Hn as [|? ? Hx]. exfalso. eauto.
    + f_equal. eapply IH; eauto.
Qed.
Ltac decide_proper := apply proper_ok; [repeat constructor | repeat (constructor; [cbn; lia|]); constructor].

(** Three members, with the parent node of the first two *)
Definition treeHeap : heap :=
  [NLeaf (sampleLeaf "a" x01); NParent (mkParentNode [x01] [x02] [1]); NLeaf (sampleLeaf "b" x02); NLeaf (sampleLeaf "c" x03)].
Definition treeThree : ptree := [Some 0%nat; Some 1%nat; Some 2%nat; None; Some 3%nat; None; None].
Lemma treeThree_proper : proper treeHeap treeThree.
Proof. decide_proper. Qed.
Lemma treeThree_shaped : shaped 2 (deref treeHeap treeThree).
Proof. apply shapedb_ok; [unfold fits; lia|reflexivity]. Qed.

Lemma paths2 p : in_tree 2 p -> In p [[]; [false]; [true]; [false; false]; [false; true]; [true; false]; [true; true]].
Proof.
  unfold in_tree. destruct p as [|[|] [|[|] [|b p]]]; cbn [length]; intros H; cbn; auto 10; lia.
Qed.
Ltac all_paths2 q H := apply paths2 in H; cbn [In] in H; repeat (destruct H as [<-|H]); [| | | | | | |destruct H].
Lemma treeThree_strong : strong_rule (deref treeHeap treeThree).
Proof.
  right. exists 2%nat. split; [exact treeThree_shaped|]. split; [|split].
  - intros q pn u Hq Hp Hu. all_paths2 q Hq; cbn in Hp; try discriminate. injection Hp as <-. destruct Hu as [<-|[]].
    split; [reflexivity|]. split; [exists true, []; reflexivity|discriminate].
  - intros q pn Hq Hp. all_paths2 q Hq; cbn in Hp; try discriminate. injection Hp as <-. repeat constructor.
  - intros q pn u j Hq Hp Hu Hj Ha. all_paths2 q Hq; cbn in Hp; try discriminate. injection Hp as <-. destruct Hu as [<-|[]].
    assert (j = 0) as -> by lia. discriminate.
Qed.

(** An update path of the first member *)

Definition sampleUp : updatePath :=
  let t := deref treeHeap treeThree in
  let ph1 := @parent_hash toy 1 (str "root key") [] (@tree_hash toy 1 2 t [] 1 [true]) in
  let ph0 := @parent_hash toy 1 (str "left key") ph1 (@tree_hash toy 1 2 t [] 0 [false; true]) in
  mkUpdatePath (mkLeafNode (fill 32 x09) (fill 32 x09) (sampleCred "a") sampleCaps 3 None ph0 [] [x01])
    [mkUpdatePathNode (str "left key") []; mkUpdatePathNode (str "root key") []].

(** The second leaf is blank and the root lists the fourth as unmerged. *)
Definition gapHeap : heap :=
  [NLeaf (sampleLeaf "a" x01); NParent (mkParentNode [x01] [x02] [3]); NLeaf (sampleLeaf "c" x03); NLeaf (sampleLeaf "d" x04)].
Definition gapTree : ptree := [Some 0%nat; None; None; Some 1%nat; Some 2%nat; None; Some 3%nat].
Lemma gapTree_proper : proper gapHeap gapTree.
Proof. decide_proper. Qed.
Lemma gapTree_shaped : shaped 2 (deref gapHeap gapTree).
Proof. apply shapedb_ok; [unfold fits; lia|reflexivity]. Qed.
Lemma gapTree_rule : unmerged_rule (deref gapHeap gapTree).
Proof.
  right. exists 2%nat. split; [exact gapTree_shaped|]. split.
  - intros q pn u Hq Hp Hu. all_paths2 q Hq; cbn in Hp; try discriminate. injection Hp as <-. destruct Hu as [<-|[]].
    split; [reflexivity|]. split; [exists true, [true]; reflexivity|discriminate].
  - intros q pn Hq Hp. all_paths2 q Hq; cbn in Hp; try discriminate. injection Hp as <-. repeat constructor.
Qed.
Definition gapAdded : res (heap * ptree) := addH gapHeap gapTree (sampleLeaf "b" x02).
Lemma gapTree_add : exists h t, gapAdded = Ok (h, t) /\ ~ unmerged_rule (deref h t).
Proof.
  eexists. eexists. split; [vm_compute; reflexivity|]. intros [H|(k & Sh & _ & Hi)]; [discriminate|].
  match type of Sh with shaped k ?t => assert (S2 : shaped 2 t) by (apply shapedb_ok; [unfold fits; lia|vm_compute; reflexivity]) end.
  pose proof (height_unique _ _ _ (shaped_full _ _ Sh) (shaped_full _ _ S2)) as ->.
  specialize (Hi [] (mkParentNode [x01] [x02] [3; 1])). cbn in Hi. specialize (Hi ltac:(unfold in_tree; cbn; lia) eq_refl).
  inversion Hi as [|? ? _ F]. inversion F. lia.
Qed.
