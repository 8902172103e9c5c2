(** Proofs that the encoders follow the RFC (SpecWire.v). *)
From Verif Require Import SpecWire BaseFacts WireFacts CodecFacts CodecFacts2 Crypto Tree.

Definition writes (w : W) (b : bytes) : Prop := forall e, w = Ok e -> e = b.
Definition encodes (w : W) (b : bytes) : Prop := lenN b < 2 ^ 30 -> w = Ok b.

(** ** Numbers *)
Lemma n2b_mod n : n2b (n mod 256) = n2b n.
Proof. unfold n2b. rewrite N.mod_mod by lia. reflexivity. Qed.
Lemma num_length k : forall n, length (num k n) = k.
Proof. induction k as [|k IH]; intros n; cbn [num]; [reflexivity|]. rewrite app_length, IH. cbn. lia. Qed.
Lemma unbe_snoc l b : unbe (l ++ [b]) = unbe l * 256 + b2n b.
Proof. unfold unbe. rewrite fold_left_app. reflexivity. Qed.
Lemma b2n_n2b' n : b2n (n2b n) = n mod 256.
Proof.
  unfold n2b. destruct (Byte.of_N (n mod 256)) as [b|] eqn:E.
  - apply Byte.to_of_N in E. exact E.
  - apply Byte.of_N_None_iff in E. pose proof (N.mod_lt n 256). lia.
Qed.
Lemma unbe_num k : forall n, unbe (num k n) = n mod 2 ^ (8 * N.of_nat k).
Proof.
  induction k as [|k IH]; intros n; cbn [num].
  - cbn. rewrite N.mod_1_r. reflexivity.
  - rewrite unbe_snoc, IH, b2n_n2b'.
    rewrite N.mod_mod by lia.
    replace (8 * N.of_nat (S k)) with (8 + 8 * N.of_nat k) by lia.
    rewrite N.pow_add_r. change (2 ^ 8) with 256.
    rewrite N.mod_mul_r by (try lia; apply N.pow_nonzero; lia).
    lia.
Qed.
Lemma num_be k n : num k n = be k n.
Proof.
  rewrite <- (be_unbe (num k n)), <- (be_unbe (be k n)), num_length, be_length, unbe_num, unbe_be.
  reflexivity.
Qed.

(** ** Composition *)
Lemma writes_ok b : writes (Ok b) b.
Proof. intros e H. congruence. Qed.
Lemma fills_ok b : encodes (Ok b) b.
Proof. intros _. reflexivity. Qed.
Lemma lenN_app' {A} (a b : list A) : lenN (a ++ b) = lenN a + lenN b.
Proof. unfold lenN. rewrite app_length. lia. Qed.
Lemma writes_app a b x y : writes a x -> writes b y -> writes (a +++ b) (x ++ y).
Proof. intros H1 H2 e H. apply wapp_ok in H. destruct H as (u & v & E1 & E2 & ->). f_equal; auto. Qed.
Lemma fills_app a b x y : encodes a x -> encodes b y -> encodes (a +++ b) (x ++ y).
Proof.
  intros H1 H2 H. rewrite lenN_app' in H. rewrite H1, H2 by lia. reflexivity.
Qed.
Lemma writes_uint k n : writes (Ok (be k n)) (num k n).
Proof. rewrite num_be. apply writes_ok. Qed.
Lemma fills_uint k n : encodes (Ok (be k n)) (num k n).
Proof. rewrite num_be. apply fills_ok. Qed.
Lemma writeOpaqueVec_vec b : writeOpaqueVec b = if lenN b <? 2 ^ 30 then Ok (vec b) else writeOpaqueVec b.
Proof.
  destruct (N.ltb_spec (lenN b) (2 ^ 30)) as [H|]; [|reflexivity].
  unfold writeOpaqueVec, vec. rewrite writeVarint_spec.
  replace (2 ^ 32 <=? lenN b) with false by (symmetry; apply N.leb_gt; lia).
  rewrite !num_be.
  destruct (lenN b <? 64); [reflexivity|]. destruct (lenN b <? 16384); [reflexivity|].
  replace (lenN b <? 2 ^ 30) with true by (symmetry; apply N.ltb_lt; lia). reflexivity.
Qed.
Lemma writes_vec b : writes (writeOpaqueVec b) (vec b).
Proof.
  intros e H. pose proof (writeOpaqueVec_ok _ _ H) as [L _].
  rewrite writeOpaqueVec_vec in H. replace (lenN b <? 2 ^ 30) with true in H by (symmetry; apply N.ltb_lt; lia).
  congruence.
Qed.
Lemma vec_len b : lenN b <= lenN (vec b).
Proof. unfold vec. rewrite lenN_app'. lia. Qed.
Lemma fills_vec b : encodes (writeOpaqueVec b) (vec b).
Proof.
  intros H. pose proof (vec_len b). rewrite writeOpaqueVec_vec.
  replace (lenN b <? 2 ^ 30) with true by (symmetry; apply N.ltb_lt; lia). reflexivity.
Qed.
Section Vector.
Context {A : Type} (f : A -> W) (enc : A -> bytes).
Lemma writes_all : (forall x, writes (f x) (enc x)) -> forall l, writes (writeAll f l) (concat (map enc l)).
Proof.
  intros H. induction l as [|a l IH]; cbn [writeAll map concat]; [apply writes_ok|]. apply writes_app; auto.
Qed.
Lemma fills_all l : Forall (fun x => encodes (f x) (enc x)) l -> encodes (writeAll f l) (concat (map enc l)).
Proof.
  induction 1 as [|a l Ha Hl IH]; cbn [writeAll map concat]; [apply fills_ok|]. apply fills_app; auto.
Qed.
Lemma writes_vecOf l : (forall x, writes (f x) (enc x)) -> writes (writeVector f l) (vecOf enc l).
Proof.
  intros H e. unfold writeVector, vecOf. destruct (writeAll f l) as [raw| | |] eqn:E; try discriminate.
  apply (writes_all H) in E. subst raw. apply writes_vec.
Qed.
Lemma fills_vecOf l : Forall (fun x => encodes (f x) (enc x)) l -> encodes (writeVector f l) (vecOf enc l).
Proof.
  intros H L. pose proof (fills_all _ H) as F. unfold writeVector. rewrite F.
  - apply fills_vec. exact L.
  - unfold vecOf in L. pose proof (vec_len (concat (map enc l))). lia.
Qed.
End Vector.
Lemma writes_none : writes (writeOptional false) (num 1 0).
Proof. apply writes_uint. Qed.
Lemma fills_none : encodes (writeOptional false) (num 1 0).
Proof. apply fills_uint. Qed.
Lemma writes_some a x : writes a x -> writes (writeOptional true +++ a) (num 1 1 ++ x).
Proof. intros. apply writes_app; auto. apply writes_uint. Qed.
Lemma fills_some a x : encodes a x -> encodes (writeOptional true +++ a) (num 1 1 ++ x).
Proof. intros. apply fills_app; auto. apply fills_uint. Qed.
Lemma writes_fail_e e b : writes (Err e) b.
Proof. intros x H. discriminate. Qed.
Lemma writes_fail_p e b : writes (Panic e) b.
Proof. intros x H. discriminate. Qed.

Create HintDb enc.
#[export] Hint Resolve writes_ok fills_ok writes_app fills_app writes_vec fills_vec writes_vecOf fills_vecOf
  writes_none fills_none writes_some fills_some writes_fail_e writes_fail_p : enc.
#[export] Hint Extern 1 (writes (addUint8 _) _) => apply writes_uint : enc.
#[export] Hint Extern 1 (writes (addUint16 _) _) => apply writes_uint : enc.
#[export] Hint Extern 1 (writes (addUint32 _) _) => apply writes_uint : enc.
#[export] Hint Extern 1 (writes (addUint64 _) _) => apply writes_uint : enc.
#[export] Hint Extern 1 (writes (writeOptional _) _) => apply writes_uint : enc.
#[export] Hint Extern 1 (encodes (writeOptional _) _) => apply fills_uint : enc.
#[export] Hint Extern 1 (writes (addBytes _) _) => apply writes_ok : enc.
#[export] Hint Extern 1 (encodes (addUint8 _) _) => apply fills_uint : enc.
#[export] Hint Extern 1 (encodes (addUint16 _) _) => apply fills_uint : enc.
#[export] Hint Extern 1 (encodes (addUint32 _) _) => apply fills_uint : enc.
#[export] Hint Extern 1 (encodes (addUint64 _) _) => apply fills_uint : enc.
#[export] Hint Extern 1 (encodes (addBytes _) _) => apply fills_ok : enc.
Ltac enc := repeat match goal with
  | |- writes (_ +++ _) (_ ++ _) => apply writes_app
  | |- encodes (_ +++ _) (_ ++ _) => apply fills_app
  | |- writes (writeVector _ _) _ => apply writes_vecOf; intros
  | |- encodes (writeVector _ _) _ => apply fills_vecOf
  end; auto with enc.
Lemma Forall_fills {A} (f : A -> W) enc (wf : A -> Prop) l :
  (forall x, wf x -> encodes (f x) (enc x)) -> Forall wf l -> Forall (fun x => encodes (f x) (enc x)) l.
Proof. intros H. apply Forall_impl. exact H. Qed.
Lemma Forall_any {A} (P : A -> Prop) l : (forall x, P x) -> Forall P l.
Proof. intros H. induction l; constructor; auto. Qed.
#[export] Hint Resolve Forall_any : enc.

(** ** The structs *)
Lemma writes_credential c : writes (putCredential c) (enc_credential c).
Proof.
  unfold putCredential, enc_credential. enc.
  destruct (cred_type c =? 1); enc. destruct (cred_type c =? 2); enc.
Qed.
Lemma fills_credential c : wf_credential c -> encodes (putCredential c) (enc_credential c).
Proof.
  unfold putCredential, enc_credential. intros [[-> _]|[-> _]]; cbn [N.eqb Pos.eqb]; enc.
Qed.
Lemma writes_hpkeCiphertext c : writes (putHpkeCiphertext c) (enc_hpkeCiphertext c).
Proof. unfold putHpkeCiphertext, enc_hpkeCiphertext. enc. Qed.
Lemma fills_hpkeCiphertext c : encodes (putHpkeCiphertext c) (enc_hpkeCiphertext c).
Proof. unfold putHpkeCiphertext, enc_hpkeCiphertext. enc. Qed.
Lemma writes_extension c : writes (putExtension c) (enc_extension c).
Proof. unfold putExtension, enc_extension. enc. Qed.
Lemma fills_extension c : encodes (putExtension c) (enc_extension c).
Proof. unfold putExtension, enc_extension. enc. Qed.
#[export] Hint Resolve writes_credential fills_credential writes_hpkeCiphertext fills_hpkeCiphertext
  writes_extension fills_extension : enc.
Lemma writes_extensions c : writes (putExtensionVec c) (enc_extensions c).
Proof. unfold putExtensionVec, enc_extensions. enc. Qed.
Lemma fills_extensions c : encodes (putExtensionVec c) (enc_extensions c).
Proof. unfold putExtensionVec, enc_extensions. enc. Qed.
Lemma writes_capabilities c : writes (putCapabilities c) (enc_capabilities c).
Proof. unfold putCapabilities, enc_capabilities. enc. Qed.
Lemma fills_u16s l : encodes (writeVector addUint16 l) (vecOf (num 2) l).
Proof. apply fills_vecOf. apply Forall_any. intros. enc. Qed.
Lemma fills_u32s l : encodes (writeVector addUint32 l) (vecOf (num 4) l).
Proof. apply fills_vecOf. apply Forall_any. intros. enc. Qed.
#[export] Hint Resolve fills_u16s fills_u32s writes_extensions fills_extensions writes_capabilities : enc.
Lemma fills_capabilities c : encodes (putCapabilities c) (enc_capabilities c).
Proof. unfold putCapabilities, enc_capabilities. repeat apply fills_app; apply fills_u16s. Qed.
Lemma writes_lifetime c : writes (putLifetime c) (enc_lifetime c).
Proof. unfold putLifetime, enc_lifetime. enc. Qed.
Lemma fills_lifetime c : encodes (putLifetime c) (enc_lifetime c).
Proof. unfold putLifetime, enc_lifetime. enc. Qed.
#[export] Hint Resolve fills_capabilities writes_lifetime fills_lifetime : enc.

Lemma writes_leafNodeBase l : writes (putLeafNodeBase l) (enc_leafNodeContents l).
Proof.
  unfold putLeafNodeBase, enc_leafNodeContents. enc.
  destruct (ln_source l =? 1); [destruct (ln_lifetime l); enc|]. destruct (ln_source l =? 3); enc.
Qed.
Lemma fills_leafNodeBase l : wf_leafNode l -> encodes (putLeafNodeBase l) (enc_leafNodeContents l).
Proof.
  intros (H1 & H2 & H3 & H4). unfold putLeafNodeBase, enc_leafNodeContents. enc.
  destruct H4 as [(-> & (lt & -> & _) & _)|[(-> & _)|(-> & _)]]; cbn [N.eqb Pos.eqb]; enc.
Qed.
#[export] Hint Resolve writes_leafNodeBase fills_leafNodeBase : enc.
Lemma writes_leafNode l : writes (putLeafNode l) (enc_leafNode l).
Proof. unfold putLeafNode, enc_leafNode. enc. Qed.
Lemma fills_leafNode l : wf_leafNode l -> encodes (putLeafNode l) (enc_leafNode l).
Proof. intros. unfold putLeafNode, enc_leafNode. enc. Qed.
Lemma writes_leafNodeTBS l g i : writes (putLeafNodeTBS l g i) (enc_leafNodeTBS l g i).
Proof. unfold putLeafNodeTBS, enc_leafNodeTBS. enc. destruct (_ || _); enc. Qed.
Lemma fills_leafNodeTBS l g i : wf_leafNode l -> encodes (putLeafNodeTBS l g i) (enc_leafNodeTBS l g i).
Proof. intros. unfold putLeafNodeTBS, enc_leafNodeTBS. enc. destruct (_ || _); enc. Qed.
Lemma writes_parentNode p : writes (putParentNode p) (enc_parentNode p).
Proof. unfold putParentNode, enc_parentNode. enc. Qed.
Lemma fills_parentNode p : encodes (putParentNode p) (enc_parentNode p).
Proof. unfold putParentNode, enc_parentNode. repeat apply fills_app; auto with enc. Qed.
#[export] Hint Resolve writes_leafNode fills_leafNode writes_leafNodeTBS fills_leafNodeTBS writes_parentNode fills_parentNode : enc.
Lemma writes_parentHashInput a b c : writes (putParentHashInput a b c) (enc_parentHashInput a b c).
Proof. unfold putParentHashInput, enc_parentHashInput. enc. Qed.
Lemma fills_parentHashInput a b c : encodes (putParentHashInput a b c) (enc_parentHashInput a b c).
Proof. unfold putParentHashInput, enc_parentHashInput. enc. Qed.
Lemma writes_leafHashInput i l : writes (putLeafNodeHashInput i l) (enc_leafHashInput i l).
Proof. unfold putLeafNodeHashInput, enc_leafHashInput, opt. enc. destruct l; enc. Qed.
Lemma fills_leafHashInput i l : (forall n, l = Some n -> wf_leafNode n) -> encodes (putLeafNodeHashInput i l) (enc_leafHashInput i l).
Proof. intros H. unfold putLeafNodeHashInput, enc_leafHashInput, opt. enc. destruct l; enc. Qed.
Lemma writes_parentHashTreeInput p a b : writes (putParentNodeHashInput p a b) (enc_parentHashTreeInput p a b).
Proof. unfold putParentNodeHashInput, enc_parentHashTreeInput, opt. enc. destruct p; enc. Qed.
Lemma fills_parentHashTreeInput p a b : encodes (putParentNodeHashInput p a b) (enc_parentHashTreeInput p a b).
Proof. unfold putParentNodeHashInput, enc_parentHashTreeInput, opt. enc. destruct p; enc. Qed.
Lemma writes_node n : writes (putNode n) (enc_node n).
Proof. destruct n; cbn [putNode enc_node]; enc. Qed.
Lemma fills_node n : wf_node n -> encodes (putNode n) (enc_node n).
Proof. destruct n; cbn [putNode enc_node wf_node]; intros; enc. Qed.
#[export] Hint Resolve writes_parentHashInput fills_parentHashInput writes_node fills_node : enc.
Lemma writes_optionalNode o : writes (putOptionalNode o) (opt enc_node o).
Proof. destruct o; cbn [putOptionalNode opt]; enc. Qed.
Lemma fills_optionalNode o : wf_optionalNode o -> encodes (putOptionalNode o) (opt enc_node o).
Proof. destruct o; cbn [putOptionalNode opt wf_optionalNode]; intros; enc. Qed.
Lemma chop_snoc_blank {A} (l : list (option A)) : chop (l ++ [None]) = chop l.
Proof. unfold chop. rewrite rev_app_distr. reflexivity. Qed.
Lemma chop_snoc {A} (l : list (option A)) a : chop (l ++ [Some a]) = l ++ [Some a].
Proof. unfold chop. rewrite rev_app_distr. cbn. rewrite rev_involutive. reflexivity. Qed.
Lemma trimBlanks_snoc_blank l : trimBlanks (l ++ [None]) = trimBlanks l.
Proof. apply (trimBlanks_repeat l 1). Qed.
Lemma trimBlanks_snoc l a : trimBlanks (l ++ [Some a]) = l ++ [Some a].
Proof.
  induction l as [|o l IH]; [reflexivity|]. cbn [app trimBlanks]. rewrite IH. destruct l; reflexivity.
Qed.
Lemma trimBlanks_chop t : trimBlanks t = chop t.
Proof.
  induction t as [|[a|] t IH] using rev_ind; [reflexivity| |].
  - rewrite trimBlanks_snoc, chop_snoc. reflexivity.
  - rewrite trimBlanks_snoc_blank, chop_snoc_blank. exact IH.
Qed.
Lemma chop_incl {A} (l : list (option A)) o : In o (chop l) -> In o l.
Proof.
  unfold chop. rewrite <- in_rev. rewrite (in_rev l). induction (rev l) as [|[a|] r IH]; cbn; auto.
Qed.
Lemma writes_ratchetTree t : writes (putRatchetTree t) (enc_ratchetTree t).
Proof.
  unfold putRatchetTree, enc_ratchetTree. rewrite trimBlanks_chop. apply writes_vecOf. apply writes_optionalNode.
Qed.
Lemma fills_ratchetTree t : wf_ratchetTree t -> encodes (putRatchetTree t) (enc_ratchetTree t).
Proof.
  intros [H _]. unfold putRatchetTree, enc_ratchetTree. rewrite trimBlanks_chop. apply fills_vecOf.
  rewrite Forall_forall in *. intros o Ho. apply fills_optionalNode. apply H, chop_incl, Ho.
Qed.
Lemma writes_updatePathNode n : writes (putUpdatePathNode n) (enc_updatePathNode n).
Proof. unfold putUpdatePathNode, enc_updatePathNode. enc. Qed.
Lemma fills_updatePathNode n : encodes (putUpdatePathNode n) (enc_updatePathNode n).
Proof. unfold putUpdatePathNode, enc_updatePathNode. enc. Qed.
#[export] Hint Resolve writes_updatePathNode fills_updatePathNode : enc.
Lemma writes_updatePath n : writes (putUpdatePath n) (enc_updatePath n).
Proof. unfold putUpdatePath, enc_updatePath. enc. Qed.
Lemma fills_updatePath n : wf_updatePath n -> encodes (putUpdatePath n) (enc_updatePath n).
Proof. unfold wf_updatePath, putUpdatePath, enc_updatePath. intros. enc. Qed.
#[export] Hint Resolve writes_updatePath fills_updatePath : enc.
Lemma writes_keyPackageTBS k : writes (putKeyPackageTBS k) (enc_keyPackageTBS k).
Proof. unfold putKeyPackageTBS, enc_keyPackageTBS. enc. Qed.
Lemma fills_keyPackageTBS k : wf_keyPackage k -> encodes (putKeyPackageTBS k) (enc_keyPackageTBS k).
Proof. intros (_ & _ & H & _). unfold putKeyPackageTBS, enc_keyPackageTBS. enc. Qed.
#[export] Hint Resolve writes_keyPackageTBS fills_keyPackageTBS : enc.
Lemma writes_keyPackage k : writes (putKeyPackage k) (enc_keyPackage k).
Proof. unfold putKeyPackage, enc_keyPackage. enc. Qed.
Lemma fills_keyPackage k : wf_keyPackage k -> encodes (putKeyPackage k) (enc_keyPackage k).
Proof. intros. unfold putKeyPackage, enc_keyPackage. enc. Qed.
Lemma writes_pskID p : writes (putPskID p) (enc_pskID p).
Proof. destruct p; cbn [putPskID enc_pskID]; enc. Qed.
Lemma fills_pskID p : encodes (putPskID p) (enc_pskID p).
Proof. destruct p; cbn [putPskID enc_pskID]; enc. Qed.
#[export] Hint Resolve writes_keyPackage fills_keyPackage writes_pskID fills_pskID : enc.
Lemma writes_pskLabel p i n : writes (putPskLabel p i n) (enc_pskLabel p i n).
Proof. unfold putPskLabel, enc_pskLabel. enc. Qed.
Lemma fills_pskLabel p i n : encodes (putPskLabel p i n) (enc_pskLabel p i n).
Proof. unfold putPskLabel, enc_pskLabel. enc. Qed.
Lemma writes_groupContext c : writes (putGroupContext c) (enc_groupContext c).
Proof. unfold putGroupContext, enc_groupContext. enc. Qed.
Lemma fills_groupContext c : encodes (putGroupContext c) (enc_groupContext c).
Proof. unfold putGroupContext, enc_groupContext. enc. Qed.
Lemma writes_reInit c : writes (putReInit c) (enc_reInit c).
Proof. unfold putReInit, enc_reInit. enc. Qed.
Lemma fills_reInit c : encodes (putReInit c) (enc_reInit c).
Proof. unfold putReInit, enc_reInit. enc. Qed.
#[export] Hint Resolve writes_groupContext fills_groupContext writes_reInit fills_reInit : enc.
Lemma writes_proposal p : writes (putProposal p) (enc_proposal p).
Proof. unfold putProposal. destruct p; cbn [enc_proposal proposal_type]; enc. Qed.
Lemma fills_proposal p : wf_proposal p -> encodes (putProposal p) (enc_proposal p).
Proof. unfold putProposal. destruct p; cbn [enc_proposal proposal_type wf_proposal]; intros; enc. Qed.
#[export] Hint Resolve writes_proposal fills_proposal : enc.
Lemma writes_proposalOrRef p : writes (putProposalOrRef p) (enc_proposalOrRef p).
Proof. destruct p; cbn [enc_proposalOrRef putProposalOrRef]; enc. Qed.
Lemma fills_proposalOrRef p : wf_proposalOrRef p -> encodes (putProposalOrRef p) (enc_proposalOrRef p).
Proof. destruct p; cbn [enc_proposalOrRef putProposalOrRef wf_proposalOrRef]; intros; enc. Qed.
#[export] Hint Resolve writes_proposalOrRef fills_proposalOrRef : enc.
Lemma writes_commit c : writes (putCommit c) (enc_commit c).
Proof. unfold putCommit, enc_commit, opt. enc. destruct (c_path c); enc. Qed.
Lemma fills_commit c : wf_commit c -> encodes (putCommit c) (enc_commit c).
Proof.
  intros [H1 H2]. unfold putCommit, enc_commit, opt. enc.
  - eapply Forall_fills; [|exact H1]. auto with enc.
  - destruct (c_path c); enc.
Qed.
#[export] Hint Resolve writes_commit fills_commit : enc.
Lemma writes_groupInfoTBS g : writes (putGroupInfoTBS g) (enc_groupInfoTBS g).
Proof. unfold putGroupInfoTBS, enc_groupInfoTBS. enc. Qed.
Lemma fills_groupInfoTBS g : encodes (putGroupInfoTBS g) (enc_groupInfoTBS g).
Proof. unfold putGroupInfoTBS, enc_groupInfoTBS. enc. Qed.
#[export] Hint Resolve writes_groupInfoTBS fills_groupInfoTBS : enc.
Lemma writes_groupInfo g : writes (putGroupInfo g) (enc_groupInfo g).
Proof. unfold putGroupInfo, enc_groupInfo. enc. Qed.
Lemma fills_groupInfo g : encodes (putGroupInfo g) (enc_groupInfo g).
Proof. unfold putGroupInfo, enc_groupInfo. enc. Qed.
Lemma writes_groupSecrets g : writes (putGroupSecrets g) (enc_groupSecrets g).
Proof. unfold putGroupSecrets, enc_groupSecrets, opt. enc. destruct (gs_pathSecret g); enc. Qed.
Lemma fills_groupSecrets g : encodes (putGroupSecrets g) (enc_groupSecrets g).
Proof. unfold putGroupSecrets, enc_groupSecrets, opt. enc. destruct (gs_pathSecret g); enc. Qed.
Lemma writes_encryptedGroupSecrets g : writes (putEncryptedGroupSecrets g) (enc_encryptedGroupSecrets g).
Proof. unfold putEncryptedGroupSecrets, enc_encryptedGroupSecrets. enc. Qed.
Lemma fills_encryptedGroupSecrets g : encodes (putEncryptedGroupSecrets g) (enc_encryptedGroupSecrets g).
Proof. unfold putEncryptedGroupSecrets, enc_encryptedGroupSecrets. enc. Qed.
#[export] Hint Resolve writes_groupInfo fills_groupInfo writes_encryptedGroupSecrets fills_encryptedGroupSecrets : enc.
Lemma writes_welcome w : writes (putWelcome w) (enc_welcome w).
Proof. unfold putWelcome, enc_welcome. enc. Qed.
Lemma fills_welcome w : encodes (putWelcome w) (enc_welcome w).
Proof. unfold putWelcome, enc_welcome. enc. Qed.
Lemma writes_sender s : writes (putSender s) (enc_sender s).
Proof. destruct s; cbn [putSender enc_sender]; enc. Qed.
Lemma fills_sender s : encodes (putSender s) (enc_sender s).
Proof. destruct s; cbn [putSender enc_sender]; enc. Qed.
Lemma writes_body b : writes (putBody b) (enc_body b).
Proof. destruct b; cbn [putBody enc_body]; enc. Qed.
Lemma fills_body b : wf_body b -> encodes (putBody b) (enc_body b).
Proof. destruct b; cbn [putBody enc_body wf_body]; intros; enc. Qed.
Lemma content_type_eq b : content_type b = body_type b.
Proof. reflexivity. Qed.
#[export] Hint Resolve writes_welcome fills_welcome writes_sender fills_sender writes_body fills_body : enc.
Lemma writes_framedContent c : writes (putFramedContent c) (enc_framedContent c).
Proof. unfold putFramedContent, enc_framedContent. enc. Qed.
Lemma fills_framedContent c : wf_framedContent c -> encodes (putFramedContent c) (enc_framedContent c).
Proof. intros (_ & _ & H). unfold putFramedContent, enc_framedContent. enc. Qed.
Lemma writes_authData b a : writes (putAuthData (body_type b) a) (enc_authData b a).
Proof. unfold putAuthData, enc_authData. enc. destruct b; cbn [body_type N.eqb Pos.eqb]; enc. Qed.
Lemma fills_authData b a : encodes (putAuthData (body_type b) a) (enc_authData b a).
Proof. unfold putAuthData, enc_authData. enc. destruct b; cbn [body_type N.eqb Pos.eqb]; enc. Qed.
#[export] Hint Resolve writes_framedContent fills_framedContent writes_authData fills_authData : enc.
Lemma writes_authenticatedContent a : writes (putAuthenticatedContent a) (enc_authenticatedContent a).
Proof. unfold putAuthenticatedContent, enc_authenticatedContent. enc. Qed.
Lemma fills_authenticatedContent a : wf_authenticatedContent a -> encodes (putAuthenticatedContent a) (enc_authenticatedContent a).
Proof. intros (_ & H & _). unfold putAuthenticatedContent, enc_authenticatedContent. enc. Qed.
Lemma writes_framedContentTBS w c x : writes (putFramedContentTBS w c x) (enc_framedContentTBS w c x).
Proof. unfold putFramedContentTBS, enc_framedContentTBS. enc. destruct (fc_sender c); enc. Qed.
Lemma fills_framedContentTBS w c x : wf_framedContent c -> encodes (putFramedContentTBS w c x) (enc_framedContentTBS w c x).
Proof. intros. unfold putFramedContentTBS, enc_framedContentTBS. enc. destruct (fc_sender c); enc. Qed.
#[export] Hint Resolve writes_framedContentTBS fills_framedContentTBS : enc.
Lemma writes_authenticatedContentTBM w c x a : writes (putAuthenticatedContentTBM w c x a) (enc_authenticatedContentTBM w c x a).
Proof. unfold putAuthenticatedContentTBM, enc_authenticatedContentTBM. enc. Qed.
Lemma fills_authenticatedContentTBM w c x a : wf_framedContent c ->
  encodes (putAuthenticatedContentTBM w c x a) (enc_authenticatedContentTBM w c x a).
Proof. intros. unfold putAuthenticatedContentTBM, enc_authenticatedContentTBM. enc. Qed.
Lemma writes_confirmedTranscriptHashInput w c s :
  writes (putConfirmedTranscriptHashInput w c s) (enc_confirmedTranscriptHashInput w c s).
Proof.
  unfold putConfirmedTranscriptHashInput, enc_confirmedTranscriptHashInput. destruct (fc_body c); enc.
Qed.
Lemma fills_confirmedTranscriptHashInput w c s : wf_framedContent c -> (exists k, fc_body c = BCommit k) ->
  encodes (putConfirmedTranscriptHashInput w c s) (enc_confirmedTranscriptHashInput w c s).
Proof.
  intros H [k E]. unfold putConfirmedTranscriptHashInput, enc_confirmedTranscriptHashInput. rewrite E. enc.
Qed.
Lemma writes_publicMessage m : writes (putPublicMessage m) (enc_publicMessage m).
Proof. unfold putPublicMessage, enc_publicMessage. enc. destruct (fc_sender (pubm_content m)); enc. Qed.
Lemma fills_publicMessage m : wf_publicMessage m -> encodes (putPublicMessage m) (enc_publicMessage m).
Proof. intros (H & _). unfold putPublicMessage, enc_publicMessage. enc. destruct (fc_sender (pubm_content m)); enc. Qed.
Lemma writes_privateMessage m : writes (putPrivateMessage m) (enc_privateMessage m).
Proof. unfold putPrivateMessage, enc_privateMessage. enc. Qed.
Lemma fills_privateMessage m : encodes (putPrivateMessage m) (enc_privateMessage m).
Proof. unfold putPrivateMessage, enc_privateMessage. enc. Qed.
Lemma writes_privateMessageContent m : writes (putPrivateMessageContent m) (enc_privateMessageContent m).
Proof. unfold putPrivateMessageContent, enc_privateMessageContent. enc. Qed.
Lemma fills_privateMessageContent m : wf_privateMessageContent m -> encodes (putPrivateMessageContent m) (enc_privateMessageContent m).
Proof. intros (H & _). unfold putPrivateMessageContent, enc_privateMessageContent. enc. Qed.
Lemma writes_senderDataAAD g e t : writes (putSenderDataAAD g e t) (enc_senderDataAAD g e t).
Proof. unfold putSenderDataAAD, enc_senderDataAAD. enc. Qed.
Lemma fills_senderDataAAD g e t : encodes (putSenderDataAAD g e t) (enc_senderDataAAD g e t).
Proof. unfold putSenderDataAAD, enc_senderDataAAD. enc. Qed.
Lemma writes_privateContentAAD g e t a : writes (putPrivateContentAAD g e t a) (enc_privateContentAAD g e t a).
Proof. unfold putPrivateContentAAD, enc_privateContentAAD. enc. Qed.
Lemma fills_privateContentAAD g e t a : encodes (putPrivateContentAAD g e t a) (enc_privateContentAAD g e t a).
Proof. unfold putPrivateContentAAD, enc_privateContentAAD. enc. Qed.
Lemma writes_senderData d : writes (putSenderData d) (enc_senderData d).
Proof. unfold putSenderData, enc_senderData. enc. Qed.
Lemma fills_senderData d : encodes (putSenderData d) (enc_senderData d).
Proof. unfold putSenderData, enc_senderData. enc. Qed.
#[export] Hint Resolve writes_publicMessage fills_publicMessage writes_privateMessage fills_privateMessage : enc.
Lemma writes_mlsMessage m : writes (putMlsMessage m) (enc_mlsMessage m).
Proof. unfold putMlsMessage, enc_mlsMessage. enc. destruct m; cbn [msg_wireFormat]; enc. Qed.
Lemma fills_mlsMessage m : wf_mlsMessage m -> encodes (putMlsMessage m) (enc_mlsMessage m).
Proof. unfold putMlsMessage, enc_mlsMessage. intros. enc. destruct m; cbn [msg_wireFormat wf_mlsMessage] in *; enc. Qed.

(** ** Inputs of the primitives *)
Lemma writes_labelled a b : writes (putLabelled a b) (enc_labelled a b).
Proof. unfold putLabelled, enc_labelled, mlsLabel. enc. Qed.
Lemma fills_labelled a b : encodes (putLabelled a b) (enc_labelled a b).
Proof. unfold putLabelled, enc_labelled, mlsLabel. enc. Qed.
Lemma writes_refHashInput a b : writes (putRefHashInput a b) (enc_refHashInput a b).
Proof. unfold putRefHashInput, enc_refHashInput. enc. Qed.
Lemma fills_refHashInput a b : encodes (putRefHashInput a b) (enc_refHashInput a b).
Proof. unfold putRefHashInput, enc_refHashInput. enc. Qed.
Lemma writes_kdfLabel a b n : writes (putKdfLabel a b n) (enc_kdfLabel n a b).
Proof. unfold putKdfLabel, enc_kdfLabel, mlsLabel. enc. Qed.
Lemma fills_kdfLabel a b n : encodes (putKdfLabel a b n) (enc_kdfLabel n a b).
Proof. unfold putKdfLabel, enc_kdfLabel, mlsLabel. enc. Qed.

Lemma writes_rfc_intro {A} (wf : A -> Prop) put enc :
  (forall x, writes (put x) (enc x)) -> (forall x, wf x -> encodes (put x) (enc x)) -> writes_rfc wf put enc.
Proof. intros H1 H2. split; auto. Qed.

(** ** All of them *)
Lemma encoders_follow_the_rfc :
  writes_rfc wf_credential putCredential enc_credential /\
  writes_rfc any putHpkeCiphertext enc_hpkeCiphertext /\
  writes_rfc any putExtensionVec enc_extensions /\
  writes_rfc any putCapabilities enc_capabilities /\
  writes_rfc any putLifetime enc_lifetime /\
  writes_rfc wf_leafNode putLeafNode enc_leafNode /\
  writes_rfc any putParentNode enc_parentNode /\
  writes_rfc wf_node putNode enc_node /\
  writes_rfc wf_ratchetTree putRatchetTree enc_ratchetTree /\
  writes_rfc wf_updatePath putUpdatePath enc_updatePath /\
  writes_rfc wf_keyPackage putKeyPackage enc_keyPackage /\
  writes_rfc any putPskID enc_pskID /\
  writes_rfc any putGroupContext enc_groupContext /\
  writes_rfc any putReInit enc_reInit /\
  writes_rfc wf_proposal putProposal enc_proposal /\
  writes_rfc wf_proposalOrRef putProposalOrRef enc_proposalOrRef /\
  writes_rfc wf_commit putCommit enc_commit /\
  writes_rfc any putGroupInfo enc_groupInfo /\
  writes_rfc any putGroupSecrets enc_groupSecrets /\
  writes_rfc any putEncryptedGroupSecrets enc_encryptedGroupSecrets /\
  writes_rfc any putWelcome enc_welcome /\
  writes_rfc any putSender enc_sender /\
  writes_rfc wf_framedContent putFramedContent enc_framedContent /\
  writes_rfc wf_authenticatedContent putAuthenticatedContent enc_authenticatedContent /\
  writes_rfc wf_publicMessage putPublicMessage enc_publicMessage /\
  writes_rfc any putPrivateMessage enc_privateMessage /\
  writes_rfc wf_privateMessageContent putPrivateMessageContent enc_privateMessageContent /\
  writes_rfc any putSenderData enc_senderData /\
  writes_rfc wf_mlsMessage putMlsMessage enc_mlsMessage.
Proof.
  repeat match goal with |- _ /\ _ => split end; apply writes_rfc_intro; intros; auto with enc.
  - apply writes_ratchetTree.
  - now apply fills_ratchetTree.
  - apply writes_groupSecrets.
  - apply fills_groupSecrets.
  - apply writes_authenticatedContent.
  - now apply fills_authenticatedContent.
  - apply writes_privateMessageContent.
  - now apply fills_privateMessageContent.
  - apply writes_senderData.
  - apply fills_senderData.
  - apply writes_mlsMessage.
  - now apply fills_mlsMessage.
Qed.

Lemma inputs_follow_the_rfc :
  (forall g i, writes_rfc wf_leafNode (fun l => putLeafNodeTBS l g i) (fun l => enc_leafNodeTBS l g i)) /\
  writes_rfc wf_keyPackage putKeyPackageTBS enc_keyPackageTBS /\
  writes_rfc any putGroupInfoTBS enc_groupInfoTBS /\
  (forall w x, writes_rfc wf_framedContent (fun c => putFramedContentTBS w c x) (fun c => enc_framedContentTBS w c x)) /\
  (forall w x a, writes_rfc wf_framedContent (fun c => putAuthenticatedContentTBM w c x a) (fun c => enc_authenticatedContentTBM w c x a)) /\
  (forall w s, writes_rfc (fun c => wf_framedContent c /\ exists k, fc_body c = BCommit k)
     (fun c => putConfirmedTranscriptHashInput w c s) (fun c => enc_confirmedTranscriptHashInput w c s)) /\
  (forall i, writes_rfc (fun l => forall n, l = Some n -> wf_leafNode n) (putLeafNodeHashInput i) (enc_leafHashInput i)) /\
  (forall a b, writes_rfc any (fun p => putParentNodeHashInput p a b) (fun p => enc_parentHashTreeInput p a b)) /\
  (forall a b, writes_rfc any (putParentHashInput a b) (enc_parentHashInput a b)) /\
  (forall i n, writes_rfc any (fun p => putPskLabel p i n) (fun p => enc_pskLabel p i n)) /\
  (forall e t, writes_rfc any (fun g => putSenderDataAAD g e t) (fun g => enc_senderDataAAD g e t)) /\
  (forall e t a, writes_rfc any (fun g => putPrivateContentAAD g e t a) (fun g => enc_privateContentAAD g e t a)) /\
  (forall label, writes_rfc any (putLabelled label) (enc_labelled label)) /\
  (forall label, writes_rfc any (putRefHashInput label) (enc_refHashInput label)) /\
  (forall n label, writes_rfc any (fun c => putKdfLabel label c n) (enc_kdfLabel n label)).
Proof.
  repeat match goal with |- _ /\ _ => split end; intros; apply writes_rfc_intro; intros; auto with enc.
  - apply writes_authenticatedContentTBM.
  - now apply fills_authenticatedContentTBM.
  - apply writes_confirmedTranscriptHashInput.
  - destruct H. now apply fills_confirmedTranscriptHashInput.
  - apply writes_leafHashInput.
  - now apply fills_leafHashInput.
  - apply writes_parentHashTreeInput.
  - apply fills_parentHashTreeInput.
  - apply writes_pskLabel.
  - apply fills_pskLabel.
  - apply writes_senderDataAAD.
  - apply fills_senderDataAAD.
  - apply writes_privateContentAAD.
  - apply fills_privateContentAAD.
  - apply writes_labelled.
  - apply fills_labelled.
  - apply writes_refHashInput.
  - apply fills_refHashInput.
  - apply writes_kdfLabel.
  - apply fills_kdfLabel.
Qed.

Lemma reads_rfc_intro {A} (wf : A -> Prop) get put enc :
  RT get put wf -> (forall x, wf x -> encodes (put x) (enc x)) -> reads_rfc wf get enc.
Proof. intros H1 H2 x rest W L. eapply H1; eauto. now apply H2. Qed.
Lemma decoders_follow_the_rfc :
  reads_rfc wf_leafNode getLeafNode enc_leafNode /\
  reads_rfc wf_parentNode getParentNode enc_parentNode /\
  reads_rfc wf_ratchetTree getRatchetTree enc_ratchetTree /\
  reads_rfc wf_updatePath getUpdatePath enc_updatePath /\
  reads_rfc wf_keyPackage getKeyPackage enc_keyPackage /\
  reads_rfc wf_groupContext getGroupContext enc_groupContext /\
  reads_rfc wf_pskID getPskID enc_pskID /\
  reads_rfc wf_proposal getProposal enc_proposal /\
  reads_rfc wf_commit getCommit enc_commit /\
  reads_rfc wf_groupInfo getGroupInfo enc_groupInfo /\
  reads_rfc wf_groupSecrets getGroupSecrets enc_groupSecrets /\
  reads_rfc wf_welcome getWelcome enc_welcome /\
  reads_rfc wf_publicMessage getPublicMessage enc_publicMessage /\
  reads_rfc wf_privateMessage getPrivateMessage enc_privateMessage /\
  reads_rfc wf_senderData getSenderData enc_senderData /\
  reads_rfc wf_mlsMessage getMlsMessage enc_mlsMessage.
Proof.
  splits; (eapply reads_rfc_intro;
    [eauto using leafNode_RT, parentNode_RT, ratchetTree_rt, updatePath_RT, keyPackage_RT, groupContext_RT, pskID_RT, proposal_RT, commit_RT,
       groupInfo_RT, groupSecrets_RT, welcome_RT, publicMessage_RT, privateMessage_RT, senderData_RT, mlsMessage_RT
    |intros x Hx; auto with enc]).
  - exact ratchetTree_rt.
  - now apply fills_ratchetTree.
  - apply fills_groupSecrets.
  - apply fills_senderData.
  - now apply fills_mlsMessage.
Qed.

Lemma accepts_good {A} (get : reader A) put (wf good : A -> Prop) enc :
  CAN get put wf good -> (forall x, writes (put x) (enc x)) -> accepts_rfc good get enc.
Proof. intros H1 H2 s x rest E G. destruct (H1 _ _ _ E) as [_ H]. destruct (H G) as (e & He & ->). f_equal. exact (H2 x e He). Qed.
Lemma accepted_bytes_follow_the_rfc :
  accepts_rfc any getCredential enc_credential /\
  accepts_rfc any getLeafNode enc_leafNode /\
  accepts_rfc any getParentNode enc_parentNode /\
  accepts_rfc any getUpdatePath enc_updatePath /\
  accepts_rfc good_keyPackage getKeyPackage enc_keyPackage /\
  accepts_rfc any getGroupContext enc_groupContext /\
  accepts_rfc any getPskID enc_pskID /\
  accepts_rfc good_proposal getProposal enc_proposal /\
  accepts_rfc good_commit getCommit enc_commit /\
  accepts_rfc good_groupInfo getGroupInfo enc_groupInfo /\
  accepts_rfc any getGroupSecrets enc_groupSecrets /\
  accepts_rfc any getWelcome enc_welcome /\
  accepts_rfc good_authenticatedContent getAuthenticatedContent enc_authenticatedContent /\
  accepts_rfc good_publicMessage getPublicMessage enc_publicMessage /\
  accepts_rfc any getPrivateMessage enc_privateMessage /\
  accepts_rfc any getSenderData enc_senderData /\
  accepts_rfc good_mlsMessage getMlsMessage enc_mlsMessage.
Proof.
  splits.
  - apply (accepts_good _ _ _ _ _ (CANT_CAN _ _ _ any credential_CANT)). intros x. apply writes_credential.
  - apply (accepts_good _ _ _ _ _ (CANT_CAN _ _ _ any leafNode_CANT)). intros x. apply writes_leafNode.
  - apply (accepts_good _ _ _ _ _ (CANT_CAN _ _ _ any parentNode_CANT)). intros x. apply writes_parentNode.
  - apply (accepts_good _ _ _ _ _ (CANT_CAN _ _ _ any updatePath_CANT)). intros x. apply writes_updatePath.
  - apply (accepts_good _ _ _ _ _ keyPackage_CAN). intros x. apply writes_keyPackage.
  - apply (accepts_good _ _ _ _ _ (CANT_CAN _ _ _ any groupContext_CANT)). intros x. apply writes_groupContext.
  - apply (accepts_good _ _ _ _ _ (CANT_CAN _ _ _ any pskID_CANT)). intros x. apply writes_pskID.
  - apply (accepts_good _ _ _ _ _ proposal_CAN). intros x. apply writes_proposal.
  - apply (accepts_good _ _ _ _ _ commit_CAN). intros x. apply writes_commit.
  - apply (accepts_good _ _ _ _ _ groupInfo_CAN). intros x. apply writes_groupInfo.
  - apply (accepts_good _ _ _ _ _ (CANT_CAN _ _ _ any groupSecrets_CANT)). intros x. apply writes_groupSecrets.
  - apply (accepts_good _ _ _ _ _ (CANT_CAN _ _ _ any welcome_CANT)). intros x. apply writes_welcome.
  - apply (accepts_good _ _ _ _ _ authenticatedContent_CAN). intros x. apply writes_authenticatedContent.
  - apply (accepts_good _ _ _ _ _ publicMessage_CAN). intros x. apply writes_publicMessage.
  - apply (accepts_good _ _ _ _ _ (CANT_CAN _ _ _ any privateMessage_CANT)). intros x. apply writes_privateMessage.
  - apply (accepts_good _ _ _ _ _ (CANT_CAN _ _ _ any senderData_CANT)). intros x. apply writes_senderData.
  - apply (accepts_good _ _ _ _ _ mlsMessage_CAN). intros x. apply writes_mlsMessage.
Qed.
