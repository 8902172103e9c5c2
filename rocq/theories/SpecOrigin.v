(** Who has made what is accepted: C94 to C96.  The calls of a program sign;
    whoever accepts a signed object accepts what was given to such a call, if
    the bytes that were verified are bytes that were signed. *)
From Verif Require Export SpecEpoch SpecTypes SpecJoin SpecWhole.

(** The calls that sign, with their random bytes and the clock readings of
    GenerateKeyPairPackage *)
Inductive call :=
| CallKeyPackage (cs : N) (cred : credential) (t0 t1 : gotime) (r1 r2 r3 r4 r5 : bytes)
| CallMessage (g : group) (data rndSign reuseGuard : bytes)
| CallWelcome (g : group) (kps : list keyPackage) (rndSign rndInfo : bytes) (rndsHpke : list bytes) (reuseGuard : bytes).

(** The body of a commit that adds members *)
Definition additions (kps : list keyPackage) : body := BCommit (mkCommit (map (fun k => PorProposal (PAdd k)) kps) None).

Section WithCrypto.
Context {C : crypto}.

(** Groups are those of the API, key packages and credentials are values the
    program has decoded or built. *)
Definition lawful_call (c : call) : Prop :=
  match c with
  | CallKeyPackage cs cred _ _ _ _ _ _ _ => u16 cs /\ wf_credential cred
  | CallMessage g _ _ _ => lawful g
  | CallWelcome g kps _ _ _ _ => lawful g /\ Forall wf_keyPackage kps
  end.

(** The group information, not yet signed, of the epoch that [g] begins by
    adding [kps]: [t] is the tree with the new members, [sig] the signature of
    the commit. *)
Definition new_info (g : group) (kps : list keyPackage) (k : nat) (t : ratchetTree) (sig : bytes) : groupInfo :=
  let cs := gc_cipherSuite (gr_context g) in
  let ctx := next_context (gr_context g) (tree_hash cs k t [] k [])
               (confirmed_transcript_hash cs (gr_interimTranscriptHash g) 2 (member_content g (additions kps)) sig) in
  let joiner := joiner_secret ctx (gr_initSecret g) (zeroes (secretSize cs)) in
  mkGroupInfo ctx [mkExtension 2 (enc_ratchetTree t)] (confirmation_tag ctx (epoch_secret ctx joiner (psk_secret cs [])))
    (gr_myLeafIndex g) [].
(** [t] is the tree of [g] with the new members, and [sig] a signature of the
    commit. *)
Definition adds_to (g : group) (kps : list keyPackage) (rnd : bytes) (k : nat) (t : ratchetTree) (sig : bytes) : Prop :=
  shaped k t /\ SpecCommitTree.after_proposals (gr_value g) (map (fun k => (PAdd k, gr_myLeafIndex g)) kps) t /\
  SignWithLabel (gc_cipherSuite (gr_context g)) (gr_signaturePriv g) (str "FramedContentTBS")
    (enc_framedContentTBS 2 (member_content g (additions kps)) (gr_context g)) rnd sig.

(** The call succeeds and signs [o] with the key [priv]. *)
Definition call_signs (c : call) (priv : bytes) (o : signedObject) : Prop :=
  match c with
  | CallKeyPackage cs cred t0 t1 r1 r2 r3 r4 r5 =>
    exists kpp, generateKeyPairPackage cs cred t0 t1 r1 r2 r3 r4 r5 = Ok kpp /\ kpp_signatureKey kpp = priv /\
      (o = SignLeafNode (kp_leafNode (kpp_public kpp)) [] 0 \/ o = SignKeyPackage (kpp_public kpp))
  | CallMessage g data rs rg =>
    exists raw, createApplicationMessage g data rs rg = Ok raw /\ gr_signaturePriv g = priv /\
      o = SignFramedContent 2 (member_content g (BApplication data)) (gr_context g)
  | CallWelcome g kps rs ri rh rg =>
    exists g' w raw, createWelcome g kps rs ri rh rg = (g', Ok (w, raw)) /\ gr_signaturePriv g = priv /\
      (o = SignFramedContent 2 (member_content g (additions kps)) (gr_context g) \/
       exists k t sig, adds_to g kps rs k t sig /\ o = SignGroupInfo (new_info g kps k t sig))
  end.

(** One of the calls [did] has signed, with [priv], the bytes that a signature
    of [o] is a signature of. *)
Definition vouched (did : call -> Prop) (priv : bytes) (o : signedObject) : Prop :=
  exists c o', did c /\ lawful_call c /\ call_signs c priv o' /\ signedBytes o' = Ok (enc_labelled (signed_label o) (signed_content o)).

(** [key] is the signature key of the leaf that sends [ac]. *)
Definition sent_with_key (g : group) (ac : authenticatedContent) (li : N) (key : bytes) : Prop :=
  fc_sender (ac_content ac) = SMember li /\
  exists leaf, leaf_at (gr_value g) (designated li) = Some leaf /\ ln_signatureKey leaf = key.

(** A member with the same group context, in the leaf [li], has made the call
    that sends [ac], for the signer with the key [priv]. *)
Definition made_by_call (did : call -> Prop) (priv : bytes) (g : group) (li : N) (ac : authenticatedContent) : Prop :=
  exists gs, lawful gs /\ gr_signaturePriv gs = priv /\ gr_context gs = gr_context g /\ gr_myLeafIndex gs = li /\
    ac_wireFormat ac = 2 /\ ac_content ac = member_content gs (fc_body (ac_content ac)) /\
    match fc_body (ac_content ac) with
    | BApplication data => exists rs rg, did (CallMessage gs data rs rg)
    | BCommit c => exists kps rs ri rh rg, did (CallWelcome gs kps rs ri rh rg) /\ BCommit c = additions kps
    | BProposal _ => False
    end.

(** A member has called CreateWelcome, and the joiner is in the state of the
    epoch that the member has begun; both compute the same confirmation tag. *)
Definition invited_by_call (did : call -> Prop) (priv : bytes) (g : group) (signer : N) : Prop :=
  exists gs kps rs ri rh rg k t sig,
    did (CallWelcome gs kps rs ri rh rg) /\ lawful gs /\ gr_signaturePriv gs = priv /\ gr_myLeafIndex gs = signer /\ adds_to gs kps rs k t sig /\
    gr_context g = gi_groupContext (new_info gs kps k t sig) /\
    confirmation_tag (gr_context g) (gr_epochSecret g) = gi_confirmationTag (new_info gs kps k t sig) /\
    unmarshal getRatchetTree (enc_ratchetTree t) = Ok (gr_value g) /\
    (ends_with_member (gr_value gs) -> gr_value g = t).

(** The key package was generated by a call, but for its signature. *)
Definition generated_by_call (did : call -> Prop) (priv : bytes) (k : keyPackage) : Prop :=
  exists cs cred t0 t1 r1 r2 r3 r4 r5 kpp,
    did (CallKeyPackage cs cred t0 t1 r1 r2 r3 r4 r5) /\ generateKeyPairPackage cs cred t0 t1 r1 r2 r3 r4 r5 = Ok kpp /\
    kpp_signatureKey kpp = priv /\ same_signed (SignKeyPackage k) (SignKeyPackage (kpp_public kpp)).

(** What is sent by a call, if it succeeds, is vouched for: the commit of
    CreateWelcome and the group information that is in the Welcome. *)
Definition sends_vouched (did : call -> Prop) (g : group) (kps : list keyPackage) (rs : bytes) (w : welcome) : Prop :=
  vouched did (gr_signaturePriv g) (SignFramedContent 2 (member_content g (additions kps)) (gr_context g)) /\
  exists k t sig joiner psk infoSig, adds_to g kps rs k t sig /\
    let i := new_info g kps k t sig in
    w_encryptedGroupInfo w = encrypted_group_info (w_cipherSuite w) joiner psk
      (mkGroupInfo (gi_groupContext i) (gi_extensions i) (gi_confirmationTag i) (gi_signer i) infoSig) /\
    vouched did (gr_signaturePriv g) (SignGroupInfo i).
End WithCrypto.
