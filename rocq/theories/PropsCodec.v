(** Properties C01-C08: the codec. *)
From Verif Require Import SpecCodecFacts Samples.

(** ** C01 *)
Theorem C01_varint_decoder_accepts_exactly_shortest :
  forall s n rest, readVarint s = (Ok n, rest) <-> exists bs, s = bs ++ rest /\ shortest bs n.
Proof. exact varint_accepts. Qed.
Print Assumptions C01_varint_decoder_accepts_exactly_shortest.

Theorem C01_varint_encoder_is_shortest_below_2p30 :
  forall n, (n < 2 ^ 30 -> exists bs, writeVarint n = Ok bs /\ shortest bs n) /\
            (2 ^ 30 <= n -> exists msg, writeVarint n = Err msg).
Proof. exact varint_writes. Qed.
Print Assumptions C01_varint_encoder_is_shortest_below_2p30.

Example C01_example :
  writeVarint 15293 = Ok [x7b; xbd] /\ readVarint [x7b; xbd; x01] = (Ok 15293, [x01]) /\
  is_ok (fst (readVarint [x40; x25])) = false /\ is_ok (fst (readVarint [xc0; x00])) = false.
Proof. repeat split; reflexivity. Qed.

(** ** C02 *)
Theorem C02_decoding_undoes_encoding :
  decodes_back getLeafNode putLeafNode wf_leafNode /\
  decodes_back getParentNode putParentNode wf_parentNode /\
  decodes_back getNode putNode wf_node /\
  decodes_back getRatchetTree putRatchetTree wf_ratchetTree /\
  decodes_back getUpdatePath putUpdatePath wf_updatePath /\
  decodes_back getKeyPackage putKeyPackage wf_keyPackage /\
  decodes_back getGroupContext putGroupContext wf_groupContext /\
  decodes_back getPskID putPskID wf_pskID /\
  decodes_back getProposal putProposal wf_proposal /\
  decodes_back getCommit putCommit wf_commit /\
  decodes_back getGroupInfo putGroupInfo wf_groupInfo /\
  decodes_back getGroupSecrets putGroupSecrets wf_groupSecrets /\
  decodes_back getWelcome putWelcome wf_welcome /\
  decodes_back getAuthenticatedContent putAuthenticatedContent wf_authenticatedContent /\
  decodes_back getPublicMessage putPublicMessage wf_publicMessage /\
  decodes_back getPrivateMessage putPrivateMessage wf_privateMessage /\
  decodes_back getSenderData putSenderData wf_senderData /\
  decodes_back getMlsMessage putMlsMessage wf_mlsMessage.
Proof.
  exact (conj leafNode_RT (conj parentNode_RT (conj node_RT (conj ratchetTree_rt (conj updatePath_RT
        (conj keyPackage_RT (conj groupContext_RT (conj pskID_RT (conj proposal_RT (conj commit_RT
        (conj groupInfo_RT (conj groupSecrets_RT (conj welcome_RT (conj authenticatedContent_RT
        (conj publicMessage_RT (conj privateMessage_RT (conj senderData_RT mlsMessage_RT))))))))))))))))).
Qed.
Print Assumptions C02_decoding_undoes_encoding.

(** The content of a private message is decoded knowing its content type. *)
Theorem C02_private_message_content :
  forall c e rest, wf_privateMessageContent c -> putPrivateMessageContent c = Ok e ->
  getPrivateMessageContent (body_type (pmc_body c)) (e ++ rest) = (Ok c, rest).
Proof. exact privateMessageContent_rt. Qed.
Print Assumptions C02_private_message_content.

Theorem C02_UnmarshalKeyPackage_Bytes :
  forall k raw, wf_keyPackage k -> keyPackageBytes k = Ok raw -> unmarshalKeyPackage raw = Ok k.
Proof. exact unmarshalKeyPackage_Bytes. Qed.
Print Assumptions C02_UnmarshalKeyPackage_Bytes.

Theorem C02_UnmarshalWelcome_Bytes :
  forall w raw, wf_welcome w -> welcomeBytes w = Ok raw -> unmarshalWelcome raw = Ok w.
Proof. exact unmarshalWelcome_Bytes. Qed.
Print Assumptions C02_UnmarshalWelcome_Bytes.

Example C02_example :
  wf_keyPackage sampleKP /\ is_ok (keyPackageBytes sampleKP) = true /\
  wf_welcome sampleWelcome /\ is_ok (welcomeBytes sampleWelcome) = true /\
  wf_ratchetTree sampleTree /\ is_ok (putRatchetTree sampleTree) = true.
Proof. exact (conj sampleKP_wf (conj eq_refl (conj sampleWelcome_wf (conj eq_refl (conj sampleTree_wf eq_refl))))). Qed.

(** ** C03 *)
Theorem C03_accepted_welcome_is_canonical :
  forall raw w, unmarshalWelcome raw = Ok w -> welcomeBytes w = Ok raw.
Proof. exact unmarshalWelcome_canonical. Qed.
Print Assumptions C03_accepted_welcome_is_canonical.

Theorem C03_no_extension_or_truncation_of_welcome :
  forall raw more w w', unmarshalWelcome raw = Ok w -> unmarshalWelcome (raw ++ more) = Ok w' -> more = [].
Proof. exact unmarshalWelcome_prefix. Qed.
Print Assumptions C03_no_extension_or_truncation_of_welcome.

Theorem C03_accepted_private_message_is_canonical :
  forall raw m, unmarshal getMlsMessage raw = Ok (MPrivate m) -> putMlsMessage (MPrivate m) = Ok raw.
Proof. exact privateMessage_canonical. Qed.
Print Assumptions C03_accepted_private_message_is_canonical.

Theorem C03_no_extension_or_truncation_of_private_message :
  forall raw more m x, unmarshal getMlsMessage raw = Ok (MPrivate m) ->
  unmarshal getMlsMessage (raw ++ more) = Ok x -> more = [].
Proof. exact privateMessage_prefix. Qed.
Print Assumptions C03_no_extension_or_truncation_of_private_message.

Example C03_example :
  exists raw1 raw2, welcomeBytes sampleWelcome = Ok raw1 /\ unmarshalWelcome raw1 = Ok sampleWelcome /\
  putMlsMessage (MPrivate samplePrivate) = Ok raw2 /\ unmarshal getMlsMessage raw2 = Ok (MPrivate samplePrivate).
Proof. do 2 eexists. repeat split; vm_compute; reflexivity. Qed.

(** ** C04: false of the code; a key package whose signature field is missing
    is accepted (key_package.go:74-76 returns a nil error). *)
Theorem C04_truncated_key_package_accepted_refuted :
  exists raw cut k k', cut <> [] /\
    unmarshalKeyPackage (raw ++ cut) = Ok k /\ keyPackageBytes k = Ok (raw ++ cut) /\
    unmarshalKeyPackage raw = Ok k' /\ keyPackageBytes k' <> Ok raw.
Proof.
  exists (match keyPackageBytes sampleKP with Ok b => firstn (length b - 4) b | _ => [] end), [x03; x11; x12; x13].
  do 2 eexists. split; [discriminate|]. split; [vm_compute; reflexivity|]. split; [vm_compute; reflexivity|].
  split; [vm_compute; reflexivity|vm_compute; discriminate].
Qed.
Print Assumptions C04_truncated_key_package_accepted_refuted.

(** What holds: the only defect is a missing signature.  Missing for the full
    property: results with an empty signature. *)
Theorem C04_key_package_with_signature_is_canonical_partial :
  forall raw k, unmarshalKeyPackage raw = Ok k -> kp_signature k <> [] -> keyPackageBytes k = Ok raw.
Proof. exact unmarshalKeyPackage_good. Qed.
Print Assumptions C04_key_package_with_signature_is_canonical_partial.

Theorem C04_key_package_with_signature_prefix_free_partial :
  forall raw more k k', unmarshalKeyPackage raw = Ok k -> unmarshalKeyPackage (raw ++ more) = Ok k' ->
  kp_signature k <> [] -> more = [].
Proof. exact unmarshalKeyPackage_prefix. Qed.
Print Assumptions C04_key_package_with_signature_prefix_free_partial.

Example C04_example :
  exists raw, keyPackageBytes sampleKP = Ok raw /\ unmarshalKeyPackage raw = Ok sampleKP /\ kp_signature sampleKP <> [].
Proof. eexists. split; [vm_compute; reflexivity|]. split; [vm_compute; reflexivity|discriminate]. Qed.

(** ** C05 *)
Theorem C05_UnmarshalKeyPackage_total : forall raw, no_crash (unmarshalKeyPackage raw).
Proof. exact unmarshalKeyPackage_total. Qed.
Print Assumptions C05_UnmarshalKeyPackage_total.

Theorem C05_UnmarshalWelcome_total : forall raw, no_crash (unmarshalWelcome raw).
Proof. exact unmarshalWelcome_total. Qed.
Print Assumptions C05_UnmarshalWelcome_total.

Theorem C05_decoders_total :
  total_decoder getMlsMessage /\ total_decoder getRatchetTree /\ total_decoder getGroupSecrets /\
  total_decoder getGroupInfo /\ total_decoder getSenderData /\
  (forall ct, In ct [1; 2; 3] -> total_decoder (getPrivateMessageContent ct)).
Proof.
  exact (conj (SAFE_total _ mlsMessage_SAFE SUF_mlsMessage) (conj (SAFE_total _ ratchetTree_SAFE SUF_ratchetTree)
        (conj (SAFE_total _ groupSecrets_SAFE SUF_groupSecrets) (conj (SAFE_total _ groupInfo_SAFE SUF_groupInfo)
        (conj (SAFE_total _ senderData_SAFE SUF_senderData)
        (fun ct H => SAFE_total _ (privateMessageContent_SAFE ct H) (SUF_privateMessageContent ct))))))).
Qed.
Print Assumptions C05_decoders_total.

Example C05_example :
  unmarshalKeyPackage [x00; x01; x00; x05; xff] = Err "unexpected EOF" /\
  is_ok (unmarshalWelcome [x00; x01; x00; x03; x00; x01; x00; x00]) = true.
Proof. split; vm_compute; reflexivity. Qed.

(** ** C06 *)
Theorem C06_key_package_reencodes :
  forall raw k, unmarshalKeyPackage raw = Ok k -> exists raw', keyPackageBytes k = Ok raw'.
Proof. exact unmarshalKeyPackage_Bytes_total. Qed.
Print Assumptions C06_key_package_reencodes.

Theorem C06_welcome_reencodes :
  forall raw w, unmarshalWelcome raw = Ok w -> exists raw', welcomeBytes w = Ok raw'.
Proof. exact (fun raw w H => ex_intro _ raw (unmarshalWelcome_canonical raw w H)). Qed.
Print Assumptions C06_welcome_reencodes.

Example C06_example : exists raw k, unmarshalKeyPackage raw = Ok k.
Proof. destruct C04_example as (raw & _ & H & _). exists raw, sampleKP. exact H. Qed.

(** ** C07 *)
Theorem C07_labelled_content_injective :
  forall label1 content1 label2 content2 bs,
  putLabelled label1 content1 = Ok bs -> putLabelled label2 content2 = Ok bs ->
  label1 = label2 /\ content1 = content2.
Proof. exact putLabelled_inj. Qed.
Print Assumptions C07_labelled_content_injective.

Theorem C07_signed_bytes_unambiguous :
  forall o1 o2 bs, wf_signedObject o1 -> wf_signedObject o2 ->
  signedBytes o1 = Ok bs -> signedBytes o2 = Ok bs -> same_signed o1 o2.
Proof. exact signedBytes_inj. Qed.
Print Assumptions C07_signed_bytes_unambiguous.

(** The input of the membership MAC. *)
Theorem C07_membership_mac_input_unambiguous :
  forall wf1 c1 x1 a1 wf2 c2 x2 a2 bs,
  u16 wf1 -> u16 wf2 -> wf_framedContent c1 -> wf_framedContent c2 -> wf_groupContext x1 -> wf_groupContext x2 ->
  wf_authData (body_type (fc_body c1)) a1 -> wf_authData (body_type (fc_body c2)) a2 ->
  putAuthenticatedContentTBM wf1 c1 x1 a1 = Ok bs -> putAuthenticatedContentTBM wf2 c2 x2 a2 = Ok bs ->
  wf1 = wf2 /\ c1 = c2 /\ (coversContext c1 -> x1 = x2) /\ a1 = a2.
Proof. exact framedContentTBM_inj. Qed.
Print Assumptions C07_membership_mac_input_unambiguous.

Example C07_example :
  wf_signedObject (SignLeafNode (sampleLeaf "a" x01) (str "group") 3) /\
  is_ok (signedBytes (SignLeafNode (sampleLeaf "a" x01) (str "group") 3)) = true /\
  is_ok (signedBytes (SignKeyPackage sampleKP)) = true /\
  is_ok (signedBytes (SignGroupInfo sampleGroupInfo)) = true /\
  is_ok (signedBytes (SignFramedContent 1 sampleContent sampleContext)) = true.
Proof. exact (conj (conj (sampleLeaf_wf "a" x01) eq_refl) (conj eq_refl (conj eq_refl (conj eq_refl eq_refl)))). Qed.

(** ** C08 *)
Theorem C08_tree_round_trip :
  forall t raw, wf_ratchetTree t -> putRatchetTree t = Ok raw -> unmarshal getRatchetTree raw = Ok t.
Proof. exact ratchetTree_roundtrip. Qed.
Print Assumptions C08_tree_round_trip.

(** A decoded tree is the transmitted node list followed by blanks, and it is
    the smallest full binary tree that can hold the list. *)
Theorem C08_decoded_tree_is_smallest_full_tree :
  forall raw t, unmarshal getRatchetTree raw = Ok t ->
  exists l d, unmarshal (readVector getOptionalNode) raw = Ok l /\
    t = l ++ repeat None (length t - length l) /\ lenN t + 1 = 2 ^ d /\
    (forall d', lenN l + 1 <= 2 ^ d' -> 2 ^ d <= 2 ^ d').
Proof. exact ratchetTree_full. Qed.
Print Assumptions C08_decoded_tree_is_smallest_full_tree.

Theorem C08_accepted_tree_reencodes :
  forall raw l t, unmarshal (readVector getOptionalNode) raw = Ok l -> unmarshal getRatchetTree raw = Ok t ->
  endsNonBlank l -> putRatchetTree t = Ok raw.
Proof. exact ratchetTree_reencode. Qed.
Print Assumptions C08_accepted_tree_reencodes.

Example C08_example :
  exists raw, wf_ratchetTree sampleTree /\ putRatchetTree sampleTree = Ok raw /\ unmarshal getRatchetTree raw = Ok sampleTree.
Proof. eexists. split; [exact sampleTree_wf|]. split; vm_compute; reflexivity. Qed.
