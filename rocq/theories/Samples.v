(** Concrete values used by the examples next to the theorems. *)
From Verif Require Export WellFormed Toy.

Definition fill (n : nat) (b : byte) : bytes := repeat b n.

Definition sampleCaps : capabilities := mkCapabilities [1] [1; 2; 3; 7] [] [] [1].
Definition sampleCred (name : string) : credential := mkCredential 1 (str name) [].
Definition sampleLeaf (name : string) (k : byte) : leafNode :=
  mkLeafNode (fill 32 k) (fill 32 k) (sampleCred name) sampleCaps 1 (Some (mkLifetime 100 5000)) [] []
    [x01; x02; x03].
Definition sampleCommitLeaf (name : string) (k : byte) : leafNode :=
  mkLeafNode (fill 32 k) (fill 32 k) (sampleCred name) sampleCaps 3 None [x0a; x0b] []
    [x01; x02; x03].
Definition sampleKP : keyPackage := mkKeyPackage 1 1 (fill 32 x07) (sampleLeaf "alice" x08) [] [x11; x12; x13].
Definition sampleWelcome : welcome :=
  mkWelcome 1 [mkEncryptedGroupSecrets [x01; x02] (mkHpkeCiphertext [x03] [x04; x05])] [x06; x07].
Definition samplePrivate : privateMessage := mkPrivateMessage (str "group") 5 1 [x01] [x02; x03] [x04; x05; x06].
Definition sampleTree : ratchetTree :=
  [Some (NLeaf (sampleLeaf "a" x01)); Some (NParent (mkParentNode [x01] [x02] [1]));
   Some (NLeaf (sampleLeaf "b" x02)); None; Some (NLeaf (sampleLeaf "c" x03)); None; None].
Definition sampleContext : groupContext := mkGroupContext 1 1 (str "group") 7 (fill 32 x05) (fill 32 x06) [].
Definition sampleContent : framedContent :=
  mkFramedContent (str "group") 7 (SMember 0) [x01] (BProposal (PRemove 1)).
Definition sampleGroupInfo : groupInfo := mkGroupInfo sampleContext [] [x01] 0 [x02].

Lemma sampleLeaf_wf name k : wf_leafNode (sampleLeaf name k).
Proof.
  split; [left; split; reflexivity|]. split; [repeat constructor|]. split; [constructor|].
  left. split; [reflexivity|]. split; [|reflexivity]. eexists. split; [reflexivity|]. split; reflexivity.
Qed.
Lemma sampleKP_wf : wf_keyPackage sampleKP.
Proof. split; [reflexivity|]. split; [reflexivity|]. split; [apply sampleLeaf_wf|constructor]. Qed.
Lemma sampleWelcome_wf : wf_welcome sampleWelcome.
Proof. reflexivity. Qed.
Lemma sampleTree_wf : wf_ratchetTree sampleTree.
Proof.
  split.
  - unfold sampleTree. repeat (constructor; [first [apply sampleLeaf_wf | exact I | (repeat constructor)]|]). constructor.
  - right. exists 2. split; [reflexivity|]. exists 4%nat. eexists. split; [reflexivity|]. vm_compute. discriminate.
Qed.
