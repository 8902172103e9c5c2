(** The presentation language and the data structures of RFC 9420, written
    down from the RFC: the bytes of every value, as functions that cannot
    fail.  Nothing of the library's encoders is used here. *)
From Verif Require Export Types WellFormed.

(** ** RFC 8446 section 3 and RFC 9420 section 2.1 *)

(** [uint8], [uint16], [uint32], [uint64]: [k] bytes, the most significant
    first *)
Fixpoint num (k : nat) (n : N) : bytes :=
  match k with
  | O => []
  | S k' => num k' (n / 256) ++ [n2b (n mod 256)]
  end.

(** [opaque x<V>] (section 2.1.2): the length in one, two or four bytes, whose
    top two bits are 0, 1 and 2, then the contents *)
Definition vec (b : bytes) : bytes :=
  (if lenN b <? 64 then num 1 (lenN b)
   else if lenN b <? 16384 then num 2 (16384 + lenN b)
   else num 4 (2147483648 + lenN b)) ++ b.

(** [T x<V>] *)
Definition vecOf {A} (enc : A -> bytes) (l : list A) : bytes := vec (concat (map enc l)).

(** [optional<T>] (section 2.1.1) *)
Definition opt {A} (enc : A -> bytes) (o : option A) : bytes :=
  match o with
  | None => num 1 0
  | Some a => num 1 1 ++ enc a
  end.

(** ** Keys, credentials, extensions (sections 5.3, 7.6, 7.2) *)
Definition enc_credential (c : credential) : bytes :=
  num 2 (cred_type c) ++
  (if cred_type c =? 1 then vec (cred_identity c) else vecOf vec (cred_certificates c)).
Definition enc_hpkeCiphertext (h : hpkeCiphertext) : bytes := vec (hc_kemOutput h) ++ vec (hc_ciphertext h).
Definition enc_extension (e : extension) : bytes := num 2 (ext_type e) ++ vec (ext_data e).
Definition enc_extensions : list extension -> bytes := vecOf enc_extension.
Definition enc_capabilities (c : capabilities) : bytes :=
  vecOf (num 2) (caps_versions c) ++ vecOf (num 2) (caps_cipherSuites c) ++
  vecOf (num 2) (caps_extensions c) ++ vecOf (num 2) (caps_proposals c) ++
  vecOf (num 2) (caps_credentials c).
Definition enc_lifetime (l : lifetime) : bytes := num 8 (lt_notBefore l) ++ num 8 (lt_notAfter l).

(** ** Ratchet tree nodes (sections 7.1, 7.2, 7.6, 12.4.3.3) *)
Definition enc_leafNodeContents (l : leafNode) : bytes :=
  vec (ln_encryptionKey l) ++ vec (ln_signatureKey l) ++
  enc_credential (ln_credential l) ++ enc_capabilities (ln_capabilities l) ++
  num 1 (ln_source l) ++
  (if ln_source l =? 1 (* key_package *)
   then match ln_lifetime l with Some lt => enc_lifetime lt | None => [] end
   else if ln_source l =? 3 (* commit *) then vec (ln_parentHash l)
   else []) ++
  enc_extensions (ln_extensions l).
Definition enc_leafNode (l : leafNode) : bytes := enc_leafNodeContents l ++ vec (ln_signature l).
(** LeafNodeTBS *)
Definition enc_leafNodeTBS (l : leafNode) (groupID : bytes) (leafIndex : N) : bytes :=
  enc_leafNodeContents l ++
  (if (ln_source l =? 2) || (ln_source l =? 3) (* update, commit *)
   then vec groupID ++ num 4 leafIndex else []).
Definition enc_parentNode (p : parentNode) : bytes :=
  vec (pn_encryptionKey p) ++ vec (pn_parentHash p) ++ vecOf (num 4) (pn_unmergedLeaves p).
(** ParentHashInput (section 7.9) *)
Definition enc_parentHashInput (encryptionKey parentHash siblingHash : bytes) : bytes :=
  vec encryptionKey ++ vec parentHash ++ vec siblingHash.
(** TreeHashInput (section 7.8) *)
Definition enc_leafHashInput (leafIndex : N) (l : option leafNode) : bytes :=
  num 1 1 ++ num 4 leafIndex ++ opt enc_leafNode l.
Definition enc_parentHashTreeInput (p : option parentNode) (leftHash rightHash : bytes) : bytes :=
  num 1 2 ++ opt enc_parentNode p ++ vec leftHash ++ vec rightHash.
Definition enc_node (n : node) : bytes :=
  match n with
  | NLeaf l => num 1 1 ++ enc_leafNode l
  | NParent p => num 1 2 ++ enc_parentNode p
  end.
(** The ratchet_tree extension: without the blank nodes at the end *)
Fixpoint drop_blanks {A} (l : list (option A)) : list (option A) :=
  match l with None :: r => drop_blanks r | _ => l end.
Definition chop {A} (l : list (option A)) : list (option A) := rev (drop_blanks (rev l)).
Definition enc_ratchetTree (t : ratchetTree) : bytes := vecOf (opt enc_node) (chop t).
Definition enc_updatePathNode (n : updatePathNode) : bytes :=
  vec (upn_encryptionKey n) ++ vecOf enc_hpkeCiphertext (upn_encryptedPathSecret n).
Definition enc_updatePath (u : updatePath) : bytes :=
  enc_leafNode (up_leafNode u) ++ vecOf enc_updatePathNode (up_nodes u).

(** ** Key packages (section 10) *)
Definition enc_keyPackageTBS (k : keyPackage) : bytes :=
  num 2 (kp_version k) ++ num 2 (kp_cipherSuite k) ++ vec (kp_initKey k) ++
  enc_leafNode (kp_leafNode k) ++ enc_extensions (kp_extensions k).
Definition enc_keyPackage (k : keyPackage) : bytes := enc_keyPackageTBS k ++ vec (kp_signature k).

(** ** Pre-shared keys and the group context (sections 8.4, 8.1) *)
Definition enc_pskID (p : preSharedKeyID) : bytes :=
  match p with
  | PskExternal id nonce => num 1 1 ++ vec id ++ vec nonce
  | PskResumption usage groupID epoch nonce =>
    num 1 2 ++ num 1 usage ++ vec groupID ++ num 8 epoch ++ vec nonce
  end.
Definition enc_pskLabel (id : preSharedKeyID) (index count : N) : bytes :=
  enc_pskID id ++ num 2 index ++ num 2 count.
Definition enc_groupContext (c : groupContext) : bytes :=
  num 2 (gc_version c) ++ num 2 (gc_cipherSuite c) ++ vec (gc_groupID c) ++ num 8 (gc_epoch c) ++
  vec (gc_treeHash c) ++ vec (gc_confirmedTranscriptHash c) ++ enc_extensions (gc_extensions c).

(** ** Proposals and commits (sections 12.1, 12.4, 17.4) *)
Definition enc_reInit (r : reInit) : bytes :=
  vec (ri_groupID r) ++ num 2 (ri_version r) ++ num 2 (ri_cipherSuite r) ++ enc_extensions (ri_extensions r).
Definition enc_proposal (p : proposal) : bytes :=
  match p with
  | PAdd k => num 2 1 ++ enc_keyPackage k
  | PUpdate l => num 2 2 ++ enc_leafNode l
  | PRemove i => num 2 3 ++ num 4 i
  | PPsk id => num 2 4 ++ enc_pskID id
  | PReInit r => num 2 5 ++ enc_reInit r
  | PExternalInit k => num 2 6 ++ vec k
  | PGroupContextExtensions e => num 2 7 ++ enc_extensions e
  end.
Definition enc_proposalOrRef (p : proposalOrRef) : bytes :=
  match p with
  | PorProposal q => num 1 1 ++ enc_proposal q
  | PorReference r => num 1 2 ++ vec r
  end.
Definition enc_commit (c : commit) : bytes :=
  vecOf enc_proposalOrRef (c_proposals c) ++ opt enc_updatePath (c_path c).

(** ** Group information and welcomes (section 12.4.3) *)
Definition enc_groupInfoTBS (g : groupInfo) : bytes :=
  enc_groupContext (gi_groupContext g) ++ enc_extensions (gi_extensions g) ++
  vec (gi_confirmationTag g) ++ num 4 (gi_signer g).
Definition enc_groupInfo (g : groupInfo) : bytes := enc_groupInfoTBS g ++ vec (gi_signature g).
Definition enc_groupSecrets (g : groupSecrets) : bytes :=
  vec (gs_joinerSecret g) ++ opt vec (gs_pathSecret g) ++ vecOf enc_pskID (gs_psks g).
Definition enc_encryptedGroupSecrets (e : encryptedGroupSecrets) : bytes :=
  vec (egs_newMember e) ++ enc_hpkeCiphertext (egs_secrets e).
Definition enc_welcome (w : welcome) : bytes :=
  num 2 (w_cipherSuite w) ++ vecOf enc_encryptedGroupSecrets (w_secrets w) ++ vec (w_encryptedGroupInfo w).

(** ** Message framing (section 6) *)
Definition enc_sender (s : sender) : bytes :=
  match s with
  | SMember i => num 1 1 ++ num 4 i
  | SExternal i => num 1 2 ++ num 4 i
  | SNewMemberProposal => num 1 3
  | SNewMemberCommit => num 1 4
  end.
(** application 1, proposal 2, commit 3 *)
Definition content_type (b : body) : N :=
  match b with BApplication _ => 1 | BProposal _ => 2 | BCommit _ => 3 end.
Definition enc_body (b : body) : bytes :=
  match b with
  | BApplication d => vec d
  | BProposal p => enc_proposal p
  | BCommit c => enc_commit c
  end.
Definition enc_framedContent (c : framedContent) : bytes :=
  vec (fc_groupID c) ++ num 8 (fc_epoch c) ++ enc_sender (fc_sender c) ++
  vec (fc_authenticatedData c) ++ num 1 (content_type (fc_body c)) ++ enc_body (fc_body c).
(** FramedContentAuthData: only a commit has a confirmation tag. *)
Definition enc_authData (b : body) (a : authData) : bytes :=
  vec (ad_signature a) ++ match b with BCommit _ => vec (ad_confirmationTag a) | _ => [] end.
Definition enc_authenticatedContent (a : authenticatedContent) : bytes :=
  num 2 (ac_wireFormat a) ++ enc_framedContent (ac_content a) ++ enc_authData (fc_body (ac_content a)) (ac_auth a).
(** FramedContentTBS (section 6.1) and AuthenticatedContentTBM (section 6.2);
    the protocol version is 1. *)
Definition enc_framedContentTBS (wireFormat : N) (c : framedContent) (ctx : groupContext) : bytes :=
  num 2 1 ++ num 2 wireFormat ++ enc_framedContent c ++
  match fc_sender c with
  | SMember _ | SNewMemberCommit => enc_groupContext ctx
  | SExternal _ | SNewMemberProposal => []
  end.
Definition enc_authenticatedContentTBM (wireFormat : N) (c : framedContent) (ctx : groupContext) (a : authData) : bytes :=
  enc_framedContentTBS wireFormat c ctx ++ enc_authData (fc_body c) a.
(** ConfirmedTranscriptHashInput (section 8.2) *)
Definition enc_confirmedTranscriptHashInput (wireFormat : N) (c : framedContent) (signature : bytes) : bytes :=
  num 2 wireFormat ++ enc_framedContent c ++ vec signature.
Definition enc_publicMessage (m : publicMessage) : bytes :=
  enc_framedContent (pubm_content m) ++ enc_authData (fc_body (pubm_content m)) (pubm_auth m) ++
  match fc_sender (pubm_content m) with SMember _ => vec (pubm_membershipTag m) | _ => [] end.
Definition enc_privateMessage (m : privateMessage) : bytes :=
  vec (privm_groupID m) ++ num 8 (privm_epoch m) ++ num 1 (privm_contentType m) ++
  vec (privm_authenticatedData m) ++ vec (privm_encryptedSenderData m) ++ vec (privm_ciphertext m).
(** PrivateMessageContent; the library never pads. *)
Definition enc_privateMessageContent (c : privateMessageContent) : bytes :=
  enc_body (pmc_body c) ++ enc_authData (pmc_body c) (pmc_auth c).
Definition enc_senderDataAAD (groupID : bytes) (epoch contentType : N) : bytes :=
  vec groupID ++ num 8 epoch ++ num 1 contentType.
Definition enc_privateContentAAD (groupID : bytes) (epoch contentType : N) (authenticatedData : bytes) : bytes :=
  vec groupID ++ num 8 epoch ++ num 1 contentType ++ vec authenticatedData.
Definition enc_senderData (d : senderData) : bytes :=
  num 4 (sd_leafIndex d) ++ num 4 (sd_generation d) ++ sd_reuseGuard d.
(** MLSMessage: version 1 and the wire format *)
Definition enc_mlsMessage (m : mlsMessage) : bytes :=
  num 2 1 ++
  match m with
  | MPublic x => num 2 1 ++ enc_publicMessage x
  | MPrivate x => num 2 2 ++ enc_privateMessage x
  | MWelcome x => num 2 3 ++ enc_welcome x
  | MGroupInfo x => num 2 4 ++ enc_groupInfo x
  | MKeyPackage x => num 2 5 ++ enc_keyPackage x
  end.

(** ** Inputs of the cryptographic primitives (sections 5.1.2, 5.1.3, 5.2, 8) *)
(** SignContent and EncryptContext *)
Definition enc_labelled (label content : bytes) : bytes := vec (str "MLS 1.0 " ++ label) ++ vec content.
Definition enc_refHashInput (label value : bytes) : bytes := vec label ++ vec value.
Definition enc_kdfLabel (length : N) (label context : bytes) : bytes :=
  num 2 length ++ vec (str "MLS 1.0 " ++ label) ++ vec context.

(** ** What it means for an encoder to follow the RFC.  The length of a vector
    must be below 2^30 (section 2.1.2). *)
Definition writes_rfc {A} (wf : A -> Prop) (put : A -> W) (enc : A -> bytes) : Prop :=
  (forall x b, put x = Ok b -> b = enc x) /\
  (forall x, wf x -> lenN (enc x) < 2 ^ 30 -> put x = Ok (enc x)).

(** and for a decoder: it returns the value and leaves what follows. *)
Definition reads_rfc {A} (wf : A -> Prop) (get : reader A) (enc : A -> bytes) : Prop :=
  forall x rest, wf x -> lenN (enc x) < 2 ^ 30 -> get (enc x ++ rest) = (Ok x, rest).
(** What a decoder accepts is the encoding of the value it returns. *)
Definition accepts_rfc {A} (good : A -> Prop) (get : reader A) (enc : A -> bytes) : Prop :=
  forall s x rest, get s = (Ok x, rest) -> good x -> s = enc x ++ rest.
(** No condition *)
Definition any {A} : A -> Prop := fun _ => True.
