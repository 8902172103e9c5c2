(** What the theorems about processing messages say, in terms of the fields of
    messages and groups. *)
From Verif Require Export SpecRfc SpecProposal Group.

(** Group id and epoch a message names *)
Definition names_group (m : mlsMessage) : option (bytes * N) :=
  match m with
  | MPublic p => Some (fc_groupID (pubm_content p), fc_epoch (pubm_content p))
  | MPrivate p => Some (privm_groupID p, privm_epoch p)
  | _ => None
  end.

(** The call did not succeed. *)
Definition rejected {A} (r : res A) : Prop := match r with Ok _ => False | _ => True end.

(** The group with another list of pending proposals, everything else as it
    was *)
Definition same_but_pending (g g' : group) : Prop :=
  g' = mkGroup (gr_heap g) (gr_tree g) (gr_context g) (gr_interimTranscriptHash g) (gr_pskSecret g) (gr_epochSecret g)
         (gr_initSecret g) (gr_myLeafIndex g) (gr_privTree g) (gr_signaturePriv g) (gr_pending g').

Section WithCrypto.
Context {C : crypto}.

(** The content a byte string carries for the members of [g]: that of a public
    message, or what the sender data and ciphertext of a private message
    decrypt to. *)
Inductive carries (g : group) (raw : bytes) : authenticatedContent -> Prop :=
| carries_public m :
    unmarshal getMlsMessage raw = Ok (MPublic m) ->
    carries g raw (mkAuthenticatedContent 1 (pubm_content m) (pubm_auth m))
| carries_private m sds sd secret pc :
    unmarshal getMlsMessage raw = Ok (MPrivate m) ->
    deriveSecret (gc_cipherSuite (gr_context g)) (gr_epochSecret g) (str "sender data") = Ok sds ->
    decryptSenderData (gc_cipherSuite (gr_context g)) m sds = Ok sd ->
    messageSecret g (sd_leafIndex sd) (privm_contentType m) (sd_generation sd) = Ok secret ->
    decryptContent (gc_cipherSuite (gr_context g)) m secret (sd_reuseGuard sd) = Ok pc ->
    carries g raw (mkAuthenticatedContent 2
      (mkFramedContent (privm_groupID m) (privm_epoch m) (SMember (sd_leafIndex sd)) (privm_authenticatedData m) (pmc_body pc))
      (pmc_auth pc)).

(** [ac] names this group and epoch, and was signed, together with the group
    context, with the key of the leaf it names as its sender. *)
Definition authentic (g : group) (ac : authenticatedContent) : Prop :=
  fc_groupID (ac_content ac) = gc_groupID (gr_context g) /\
  fc_epoch (ac_content ac) = gc_epoch (gr_context g) /\
  exists li leaf,
    fc_sender (ac_content ac) = SMember li /\
    nth_error (gr_value g) (N.to_nat ((2 * li) mod 2 ^ 32)) = Some (Some (NLeaf leaf)) /\
    VerifyWithLabel (gc_cipherSuite (gr_context g)) (ln_signatureKey leaf) (str "FramedContentTBS")
      (enc_framedContentTBS (ac_wireFormat ac) (ac_content ac) (gr_context g)) (ad_signature (ac_auth ac)).

(** The membership tag of a public message is the MAC, under the membership key
    of the epoch, of the content, context, signature and confirmation tag. *)
Definition membership_tagged (g : group) (m : publicMessage) : Prop :=
  pubm_membershipTag m = membership_tag (gr_context g) (gr_epochSecret g) (pubm_content m) (pubm_auth m).

(** A key package fit to be added to a group with this context *)
Definition addable (ctx : groupContext) (k : keyPackage) : Prop :=
  kp_version k = gc_version ctx /\ kp_cipherSuite k = gc_cipherSuite ctx /\
  ln_source (kp_leafNode k) = 1 /\
  ln_encryptionKey (kp_leafNode k) <> kp_initKey k /\
  can_encode (putKeyPackageTBS k) /\
  VerifyWithLabel (kp_cipherSuite k) (ln_signatureKey (kp_leafNode k)) (str "KeyPackageTBS") (enc_keyPackageTBS k) (kp_signature k).

(** [raw] is processed by [g] as a commit with content [ac], and accepted. *)
Definition accepts_commit (g : group) (raw : bytes) (now : gotime) (ac : authenticatedContent) (c : commit) (g' : group) : Prop :=
  carries g raw ac /\ fc_body (ac_content ac) = BCommit c /\ unmarshalAndProcessMessage g raw now = (g', Ok None).
End WithCrypto.

(** The position in the tree array of the leaf that a 32-bit leaf index
    designates *)
Definition leaf_position (li : N) : N := (2 * li) mod 2 ^ 32.

(** The commit [c] of member [committer] stands for the proposals [ps]. *)
Definition commits (g : group) (committer : N) (c : commit) (ps : list (proposal * N)) : Prop :=
  Forall2 (stands_for committer (gr_pending g)) (c_proposals c) ps.

Section Histories.
Context {C : crypto}.
(** ** Histories *)

(** The state after processing messages one after the other, ignoring
    errors *)
Fixpoint after (g : group) (l : list (bytes * gotime)) : group :=
  match l with
  | [] => g
  | (raw, now) :: r => after (fst (unmarshalAndProcessMessage g raw now)) r
  end.

(** The number of commits accepted on the way *)
Inductive commits_accepted : group -> list (bytes * gotime) -> N -> Prop :=
| ca_nil g : commits_accepted g [] 0
| ca_commit g raw now r n ac c g' : accepts_commit g raw now ac c g' -> commits_accepted g' r n ->
    commits_accepted g ((raw, now) :: r) (n + 1)
| ca_other g raw now r n : (forall ac c g', ~ accepts_commit g raw now ac c g') ->
    commits_accepted (fst (unmarshalAndProcessMessage g raw now)) r n ->
    commits_accepted g ((raw, now) :: r) n.
End Histories.
