{
 "claims": [
  {
   "property": "C01",
   "status": "proved",
   "theorems": [
    "C01_varint_decoder_accepts_exactly_shortest",
    "C01_varint_encoder_is_shortest_below_2p30"
   ],
   "note": ""
  },
  {
   "property": "C02",
   "status": "proved",
   "theorems": [
    "C02_decoding_undoes_encoding",
    "C02_private_message_content",
    "C02_UnmarshalKeyPackage_Bytes",
    "C02_UnmarshalWelcome_Bytes"
   ],
   "note": ""
  },
  {
   "property": "C03",
   "status": "proved",
   "theorems": [
    "C03_accepted_welcome_is_canonical",
    "C03_no_extension_or_truncation_of_welcome",
    "C03_accepted_private_message_is_canonical",
    "C03_no_extension_or_truncation_of_private_message"
   ],
   "note": ""
  },
  {
   "property": "C04",
   "status": "partial",
   "theorems": [
    "C04_truncated_key_package_accepted_refuted",
    "C04_key_package_with_signature_is_canonical_partial",
    "C04_key_package_with_signature_prefix_free_partial",
    "C04_signatures_can_be_cut_off_refuted"
   ],
   "note": "REFUTED for the code as it is: a key package cut right before its signature is accepted (key_package.go:74 returns a nil error). The _partial theorems prove the property for results whose signature is not empty. C04_signatures_can_be_cut_off_refuted is general: every key package is also accepted without its signature."
  },
  {
   "property": "C05",
   "status": "proved",
   "theorems": [
    "C05_UnmarshalKeyPackage_total",
    "C05_UnmarshalWelcome_total",
    "C05_decoders_total"
   ],
   "note": "Memory consumption of the decoders is not modelled."
  },
  {
   "property": "C06",
   "status": "proved",
   "theorems": [
    "C06_key_package_reencodes",
    "C06_welcome_reencodes"
   ],
   "note": ""
  },
  {
   "property": "C07",
   "status": "proved",
   "theorems": [
    "C07_labelled_content_injective",
    "C07_signed_bytes_unambiguous",
    "C07_membership_mac_input_unambiguous",
    "C07_signed_bytes_are_the_prescribed_ones",
    "C07_signatures_are_over_these_bytes",
    "C07_verification_is_over_these_bytes"
   ],
   "note": "Objects are compared on values in normal form (fields that are not transmitted hold their zero value)."
  },
  {
   "property": "C08",
   "status": "proved",
   "theorems": [
    "C08_tree_round_trip",
    "C08_decoded_tree_is_smallest_full_tree",
    "C08_accepted_tree_reencodes"
   ],
   "note": ""
  },
  {
   "property": "C09",
   "status": "proved",
   "theorems": [
    "C09_numbering_is_a_bijection",
    "C09_sizes_and_root",
    "C09_parent_children_sibling_follow_paths",
    "C09_parent_of_non_root_has_node_and_sibling_as_children",
    "C09_children_have_the_node_as_parent",
    "C09_leaves_have_no_children",
    "C09_root_has_no_parent"
   ],
   "note": ""
  },
  {
   "property": "C10",
   "status": "proved",
   "theorems": [
    "C10_direct_path_lists_the_proper_ancestors",
    "C10_proper_ancestors_members",
    "C10_proper_ancestors_order",
    "C10_copath_lists_the_siblings",
    "C10_copath_follows_direct_path"
   ],
   "note": ""
  },
  {
   "property": "C11",
   "status": "proved",
   "theorems": [
    "C11_common_ancestor_is_the_lowest"
   ],
   "note": ""
  },
  {
   "property": "C12",
   "status": "proved",
   "theorems": [
    "C12_shape_is_kept_by_every_history"
   ],
   "note": ""
  },
  {
   "property": "C13",
   "status": "proved",
   "theorems": [
    "C13_add_uses_the_leftmost_free_leaf"
   ],
   "note": ""
  },
  {
   "property": "C14",
   "status": "proved",
   "theorems": [
    "C14_remove_blanks_the_leaf_and_its_direct_path_and_truncates",
    "C14_other_members_keep_their_leaf"
   ],
   "note": ""
  },
  {
   "property": "C15",
   "status": "proved",
   "theorems": [
    "C15_update_replaces_the_leaf_and_blanks_its_direct_path"
   ],
   "note": ""
  },
  {
   "property": "C16",
   "status": "proved",
   "theorems": [
    "C16_members_after_a_proposal_list",
    "C16_a_valid_proposal_list_is_applied"
   ],
   "note": "Leaf indices are below 2^31 (see C27 for larger ones)."
  },
  {
   "property": "C17",
   "status": "proved",
   "theorems": [
    "C17_resolution_reaches_every_member_once"
   ],
   "note": ""
  },
  {
   "property": "C18",
   "status": "partial",
   "theorems": [
    "C18_founders_start_well_formed",
    "C18_accepted_messages_keep_the_rule_partial",
    "C18_refuted",
    "C18_unmerged_leaves_stay_well_formed_partial"
   ],
   "note": "REFUTED from an arbitrary start tree: adding a member at a blank leaf before an unmerged leaf breaks the order. Proved for start trees in which no leaf before an unmerged leaf (below the same parent) is blank; this is kept too. So it holds for founders and is kept by every message a member accepts."
  },
  {
   "property": "C19",
   "status": "proved",
   "theorems": [
    "C19_the_tree_hash_commits_to_the_tree"
   ],
   "note": "A collision is exhibited: two different calls of the hash function with the same answer."
  },
  {
   "property": "C20",
   "status": "proved",
   "theorems": [
    "C20_an_accepted_update_path_is_linked",
    "C20_a_linked_update_path_is_accepted"
   ],
   "note": ""
  },
  {
   "property": "C21",
   "status": "partial",
   "theorems": [
    "C21_verified_trees_have_integrity_partial",
    "C21_verified_trees_but_credentials_partial",
    "C21_trees_with_integrity_verify_partial",
    "C21_refuted",
    "C21_converse_refuted"
   ],
   "note": "REFUTED both ways: supportedCreds counts duplicate listings, so a tree in which not all members list a credential type can verify, and one in which all do can be rejected. Proved: soundness and completeness when no member lists a type twice; soundness of everything but credential support without that condition. The parent hash check is specified as the code does it (section 7.9.2 without the condition on the unmerged leaves). Clock later than 1970 + 90 days."
  },
  {
   "property": "C22",
   "status": "partial",
   "theorems": [
    "C22_supported_means_all_list_it_partial",
    "C22_refuted",
    "C22_converse_refuted"
   ],
   "note": "REFUTED both ways: a member listing a type twice counts twice. Proved for trees with members where no member lists a type twice."
  },
  {
   "property": "C23",
   "status": "partial",
   "theorems": [
    "C23_accepted_lifetimes_are_current",
    "C23_current_lifetimes_are_accepted_partial",
    "C23_refuted"
   ],
   "note": "Acceptance implies a current lifetime, for all 64-bit values. REFUTED in the other direction only for lifetimes ending beyond the range of time.Time (about 2.9e11 years); proved for all others."
  },
  {
   "property": "C24",
   "status": "proved",
   "theorems": [
    "C24_list_verification_decides_the_rule"
   ],
   "note": "PSK ids are compared by their encodings, so the rule adds that every PSK id can be encoded (shorter than 2^30 bytes)."
  },
  {
   "property": "C25",
   "status": "proved",
   "theorems": [
    "C25_resolution_keeps_order_and_senders",
    "C25_resolution_fails_exactly_on_unknown_references"
   ],
   "note": ""
  },
  {
   "property": "C26",
   "status": "proved",
   "theorems": [
    "C26_commit_without_required_path_is_rejected"
   ],
   "note": ""
  },
  {
   "property": "C27",
   "status": "partial",
   "theorems": [
    "C27_no_self_update_and_no_double_target_partial",
    "C27_committer_applies_own_update_refuted",
    "C27_one_leaf_updated_and_removed_refuted"
   ],
   "note": "REFUTED for the code as it is: 2*index wraps mod 2^32 (leafIndex.nodeIndex), so index i+2^31 names leaf i; a member can commit an update of their own leaf, and one leaf can be updated and removed by one commit. Proved when indices are below 2^31."
  },
  {
   "property": "C28",
   "status": "proved",
   "theorems": [
    "C28_psk_secret_depends_on_every_psk_id_order_and_count",
    "C28_no_psks_give_the_zero_secret",
    "C28_different_numbers_are_an_error"
   ],
   "note": ""
  },
  {
   "property": "C29",
   "status": "proved",
   "theorems": [
    "C29_secret_tree"
   ],
   "note": ""
  },
  {
   "property": "C30",
   "status": "proved",
   "theorems": [
    "C30_message_secrets_are_separated",
    "C30_keys_and_nonces_have_their_own_label_and_generation"
   ],
   "note": ""
  },
  {
   "property": "C31",
   "status": "proved",
   "theorems": [
    "C31_confirmed_transcript_hash_commits_to_the_history",
    "C31_interim_transcript_hash_commits_to_the_history_and_all_tags",
    "C31_every_history_has_a_log"
   ],
   "note": ""
  },
  {
   "property": "C32",
   "status": "proved",
   "theorems": [
    "C32_epoch_secret_commits_to_the_group_context",
    "C32_joiner_secret_commits_to_the_group_context",
    "C32_kdf_labels_are_injective"
   ],
   "note": ""
  },
  {
   "property": "C33",
   "status": "proved",
   "theorems": [
    "C33_application_messages_are_delivered"
   ],
   "note": "For every group that the exported operations give (obtained), member in the same epoch, data and randomness. The sender holds the signature key of its leaf (can_sign)."
  },
  {
   "property": "C34",
   "status": "proved",
   "theorems": [
    "C34_application_data_leaves_the_group_unchanged"
   ],
   "note": ""
  },
  {
   "property": "C35",
   "status": "partial",
   "theorems": [
    "C35_replays_are_always_delivered_partial",
    "C35_replay_is_delivered_refuted"
   ],
   "note": "REFUTED for the code as it is: no used-generation tracking, every replay is delivered again. The _partial theorem proves the actual behaviour."
  },
  {
   "property": "C36",
   "status": "partial",
   "theorems": [
    "C36_same_guard_same_key_and_nonce_refuted",
    "C36_nonces_differ_with_the_guards_partial",
    "C36_key_and_nonce_are_reused_refuted"
   ],
   "note": "REFUTED for the code as it is: generation is always 0, so all application messages of a member in an epoch use the same key, and the nonce only depends on the 4-byte random guard. Proved: different guards give different nonces. C36_same_guard_same_key_and_nonce_refuted is general: whenever the guard repeats, so do key and nonce."
  },
  {
   "property": "C37",
   "status": "proved",
   "theorems": [
    "C37_messages_for_another_group_or_epoch_are_rejected"
   ],
   "note": ""
  },
  {
   "property": "C38",
   "status": "proved",
   "theorems": [
    "C38_only_authenticated_content_is_acted_on"
   ],
   "note": ""
  },
  {
   "property": "C39",
   "status": "proved",
   "theorems": [
    "C39_public_application_data_is_rejected",
    "C39_messages_from_non_members_are_rejected",
    "C39_other_wire_formats_are_rejected"
   ],
   "note": ""
  },
  {
   "property": "C40",
   "status": "proved",
   "theorems": [
    "C40_nonzero_padding_is_rejected",
    "C40_zero_padding_is_accepted",
    "C40_accepted_padding_is_zero"
   ],
   "note": ""
  },
  {
   "property": "C41",
   "status": "partial",
   "theorems": [
    "C41_messages_do_not_panic_partial",
    "C41_unusable_keys_panic_refuted",
    "C41_one_message_makes_all_members_panic_refuted",
    "C41_senders_outside_of_the_tree_make_members_panic_refuted",
    "C41_messages_can_panic_refuted"
   ],
   "note": "REFUTED: a public message whose sender leaf index is outside of the tree makes the receiver panic before anything is authenticated, so one message, made from the group ID and the epoch alone, makes all members panic, and a commit that adds a key package with an ECDSA key that is not a point makes every member panic. Proved besides: in groups with any supported suite no message panics or hangs whose sender is a leaf of the tree, which has usable signature keys only, and which, if a commit, removes members only and does not overfill the tree."
  },
  {
   "property": "C42",
   "status": "partial",
   "theorems": [
    "C42_welcomes_do_not_panic_partial",
    "C42_a_key_package_is_enough_to_make_its_owner_panic_refuted",
    "C42_welcomes_can_panic_refuted"
   ],
   "note": "REFUTED: a Welcome whose group info names a signer leaf outside of its tree makes the joiner panic, and for every key package there is a Welcome, made without any key, that makes its owner panic. Proved besides: no Welcome panics or hangs whose contents have a supported suite, a tree of the right shape with usable signature keys and with the signer and unmerged leaves in it, and no blank node where a path secret goes."
  },
  {
   "property": "C43",
   "status": "proved",
   "theorems": [
    "C43_identity_is_kept_and_epochs_count_commits",
    "C43_every_history_has_a_commit_count"
   ],
   "note": ""
  },
  {
   "property": "C44",
   "status": "partial",
   "theorems": [
    "C44_rejected_messages_change_little_partial",
    "C44_rejected_messages_change_nothing_refuted",
    "C44_only_rejected_additions_change_anything_partial"
   ],
   "note": "REFUTED: ratchetTree.copy is shallow, and a commit with additions that is rejected after its proposals have been applied leaves new unmerged leaves in the tree of the group. The partial theorem shows that nothing else changes, and that nothing changes if the tree has no parent nodes. It also shows that only a commit that adds members, authentically from a member, can change anything when rejected."
  },
  {
   "property": "C45",
   "status": "partial",
   "theorems": [
    "C45_create_welcome_changes_little_partial",
    "C45_create_welcome_changes_nothing_refuted"
   ],
   "note": "REFUTED for the same reason as C44: CreateWelcome adds unmerged leaves to the parent nodes of the tree of the group. The partial theorem shows that nothing else changes, and that nothing changes if there are no parent nodes."
  },
  {
   "property": "C46",
   "status": "partial",
   "theorems": [
    "C46_tag_verification_function_partial",
    "C46_commit_with_wrong_tag_is_accepted_refuted",
    "C46_the_tag_is_not_looked_at_refuted",
    "C46_members_can_change_the_tags_of_others_refuted",
    "C46_tags_split_the_group_refuted"
   ],
   "note": "REFUTED for the code as it is: processCommit never checks the confirmation tag, so a member can send one commit with different tags to different members, who then no longer agree (C46_tags_split_the_group_refuted). The _partial theorem is about the (unused) verification function. The last two theorems are general: a commit that is accepted is accepted with every other tag, and any member can give any tag to the public commit of another."
  },
  {
   "property": "C47",
   "status": "partial",
   "theorems": [
    "C47_members_agree_after_a_welcome_partial",
    "C47_committer_agrees_refuted"
   ],
   "note": "REFUTED for the committer when the tree has parent nodes: its unmerged leaves are added twice, so its tree hash and secrets differ from those of the others. The partial theorem proves the property for all other members, and for the committer when the tree has no parent nodes (which is so in every group made with this library alone, C49)."
  },
  {
   "property": "C48",
   "status": "partial",
   "theorems": [
    "C48_new_members_join_and_agree_partial",
    "C48_new_members_join_refuted"
   ],
   "note": "REFUTED once a leaf in the tree has expired: the joiner checks the lifetimes of all leaves, and the library never renews them. The partial theorem proves the property when all leaves are current and the references of the new members do not collide."
  },
  {
   "property": "C49",
   "status": "proved",
   "theorems": [
    "C49_members_stay_in_agreement",
    "C49_invitations_are_accepted"
   ],
   "note": "For every conversation: a group founded by anyone, then any sequence of invitations, application messages, welcomes that are not sent and rejected messages, everyone processing at times of their own choice."
  },
  {
   "property": "C50",
   "status": "partial",
   "theorems": [
    "C50_members_follow_commits_partial",
    "C50_members_decrypt_paths_refuted",
    "C50_members_follow_commits_refuted",
    "C50_members_decrypt_paths_partial"
   ],
   "note": "REFUTED when the commit adds members: their leaves are not recipients of the path secrets (RFC 9420, 7.6), but decryptPathSecrets counts them, so a member whose side of the tree has a new member rejects a correct commit (witnesses by evaluation, for the function and for messages). Proved in general, for every tree, path and position, when no node above the receiver and outside the committer's path is above a new member (in particular without additions): the member computes the commit secret and holds its keys again. That makePath produces such paths is proved in SenderFacts. For whole groups: when a member in agreement with the others accepts such a commit (or one without path), every other member who keeps the leaf accepts it, and they agree and have their keys."
  },
  {
   "property": "C51",
   "status": "partial",
   "theorems": [
    "C51_removed_member_gets_an_error_refuted",
    "C51_blank_member_never_accepts_partial",
    "C51_removed_member_never_accepts_partial",
    "C51_who_follows_is_a_member_partial",
    "C51_removed_member_gets_an_error_partial"
   ],
   "note": "REFUTED by evaluation: a commit whose sender also removes their own leaf under the aliasing index li+2^31 makes the removed member panic (index out of range) instead of returning an error. Proved for all obtained groups: a member whose leaf is blank after the proposals never accepts the commit (any path, known or hostile); whoever accepts a commit is in the new tree; and if another member of the same epoch accepts it, the removed member gets an error and keeps its state up to the unmerged lists of shared nodes."
  },
  {
   "property": "C52",
   "status": "partial",
   "theorems": [
    "C52_joiner_derives_keys_refuted",
    "C52_joiner_skips_blanks_refuted",
    "C52_joiner_keys_partial",
    "C52_joiner_derives_keys_partial"
   ],
   "note": "REFUTED in two ways (witnesses by evaluation): the loop shadows pathSecret, so from the second node above the common ancestor on it derives from the wrong secret and the joiner rejects a correct Welcome; and it walks the whole direct path, so it dereferences nil at a blank node. Proved: any successful join with a path secret has opening private keys for every common ancestor, all of which are non-blank; and the path secret is accepted when the common ancestor is the root or a child of the root in the committer's path."
  },
  {
   "property": "C53",
   "status": "partial",
   "theorems": [
    "C53_keys_stay_unique_refuted",
    "C53_signature_keys_partial",
    "C53_encryption_keys_partial"
   ],
   "note": "REFUTED: added and updated leaves are not compared with the keys of the tree, so a member can add themselves a second time (witness by evaluation). Proved with the missing checks as hypotheses: if the proposed leaves bring no key twice then signature keys stay distinct (the path leaf's signature key is always checked), and encryption keys of all nodes stay distinct when in addition path keys are distinct and not those of parent nodes."
  },
  {
   "property": "C54",
   "status": "partial",
   "theorems": [
    "C54_leaves_stay_signed_refuted",
    "C54_path_leaf_signed_for_its_place_refuted",
    "C54_leaves_stay_signed_partial"
   ],
   "note": "REFUTED in two ways: an added leaf's own signature is never verified (only the key package's), and a committer index li + 2^31 gets a leaf signed for another index into place li. Proved: with committer index below 2^31 and proposed leaves signed for their places, all leaves stay signed (path leaves are verified)."
  },
  {
   "property": "C55",
   "status": "partial",
   "theorems": [
    "C55_commits_never_change_extensions_partial",
    "C55_proposed_extensions_do_not_take_effect_refuted"
   ],
   "note": "REFUTED for the code as it is: group_context_extensions proposals are accepted and ignored. Proved: no commit changes the extensions."
  },
  {
   "property": "C56",
   "status": "partial",
   "theorems": [
    "C56_no_psk_is_ever_mixed_in_refuted",
    "C56_given_psks_enter_the_epoch_secret_partial",
    "C56_proposed_psk_is_not_mixed_in_refuted"
   ],
   "note": "REFUTED for the public API: UnmarshalAndProcessMessage accepts commits with PSK proposals and mixes in no PSK. Proved: the internal processCommit mixes in the PSKs it is given. C56_no_psk_is_ever_mixed_in_refuted is general: no commit that arrives as a message mixes in a PSK."
  },
  {
   "property": "C57",
   "status": "proved",
   "theorems": [
    "C57_added_key_packages_are_valid"
   ],
   "note": ""
  },
  {
   "property": "C58",
   "status": "proved",
   "theorems": [
    "C58_new_members_are_the_invited_ones_in_order",
    "C58_joining_uninvited_fails"
   ],
   "note": ""
  },
  {
   "property": "C59",
   "status": "partial",
   "theorems": [
    "C59_joining_requires_a_valid_group_partial",
    "C59_joined_trees_are_valid_refuted"
   ],
   "note": "REFUTED: joining accepts a tree in which the credential type of a member is not supported by all, if a member lists a type twice (C22). The partial theorem proves everything else, and that too if no member lists a type twice."
  },
  {
   "property": "C60",
   "status": "proved",
   "theorems": [
    "C60_generated_packages_are_valid",
    "C60_generated_packages_are_current",
    "C60_generated_packages_may_join",
    "C60_key_packages_carry_the_identity"
   ],
   "note": "Key packages verify, survive encoding, are current for thirty days (but for a second of rounding) and may join any group with basic credentials if the keys are new; acceptance of commits that add them is then C47 and C48."
  },
  {
   "property": "C61",
   "status": "proved",
   "theorems": [
    "C61_supported_cipher_suites"
   ],
   "note": ""
  },
  {
   "property": "C62",
   "status": "partial",
   "theorems": [
    "C62_every_unknown_suite_panics_refuted",
    "C62_known_suites_do_not_panic_partial",
    "C62_key_packages_of_other_suites_are_not_added_partial",
    "C62_key_package_with_unknown_suite_panics_refuted",
    "C62_welcome_with_unknown_suite_panics_refuted"
   ],
   "note": "REFUTED for the code as it is: GenerateRef and GroupFromWelcome panic on an unknown cipher suite. The _partial theorems cover known suites and Add proposals. C62_every_unknown_suite_panics_refuted is general: every decoded key package of an unknown suite makes the computation of its reference panic."
  },
  {
   "property": "C63",
   "status": "proved",
   "theorems": [
    "C63_at_most_one_reinit_or_branch_psk",
    "C63_welcome_with_psk_is_refused"
   ],
   "note": ""
  },
  {
   "property": "C64",
   "status": "proved",
   "theorems": [
    "C64_accepted_proposal_is_remembered",
    "C64_accepted_commit_empties_the_list"
   ],
   "note": ""
  },
  {
   "property": "C65",
   "status": "proved",
   "theorems": [
    "C65_encoders_follow_the_RFC",
    "C65_inputs_of_primitives_follow_the_RFC",
    "C65_decoders_follow_the_RFC",
    "C65_accepted_bytes_follow_the_RFC"
   ],
   "note": ""
  },
  {
   "property": "C66",
   "status": "proved",
   "theorems": [
    "C66_labels_of_the_secrets_of_an_epoch",
    "C66_cipher_suites",
    "C66_key_schedule",
    "C66_transcript_hashes_and_references",
    "C66_public_key_encryption"
   ],
   "note": ""
  },
  {
   "property": "C67",
   "status": "proved",
   "theorems": [
    "C67_new_groups",
    "C67_new_epochs"
   ],
   "note": ""
  },
  {
   "property": "C68",
   "status": "proved",
   "theorems": [
    "C68_public_messages_are_received",
    "C68_public_proposals_become_pending",
    "C68_senders_that_are_not_members_have_no_membership_tag",
    "C68_application_messages",
    "C68_received_private_messages",
    "C68_membership_tags"
   ],
   "note": ""
  },
  {
   "property": "C69",
   "status": "proved",
   "theorems": [
    "C69_adding_members"
   ],
   "note": ""
  },
  {
   "property": "C70",
   "status": "proved",
   "theorems": [
    "C70_the_tree_after_a_commit"
   ],
   "note": "The updates, removals, additions and the merged path are specified by paths from the root, without the array operations of the code; leaf indices are read modulo 2^31 (see C27). The credential type is checked as claimed when no member lists a type twice (see C22). Lifetimes do not occur in leaf nodes of commits."
  },
  {
   "property": "C71",
   "status": "partial",
   "theorems": [
    "C71_trees_ending_with_a_blank_node_are_refused_refuted",
    "C71_the_tree_of_a_welcome_partial"
   ],
   "note": "REFUTED: ratchetTree.unmarshal does not look at the last node, so a Welcome can bring a tree whose right half is blank (witness by evaluation). Proved: the tree of whoever joins is the received node list followed by the fewest blanks that make it full."
  },
  {
   "property": "C72",
   "status": "proved",
   "theorems": [
    "C72_founders_hold_their_keys",
    "C72_joiners_hold_their_keys",
    "C72_members_keep_their_keys",
    "C72_inviters_keep_their_keys"
   ],
   "note": "holds_its_keys is stated with paths from the root: the private key at each non-blank node above the member opens what is sealed to its public key, and the array has no other keys. The leaf key condition excludes commits of the member's own update proposals: the code has no function to make them and does not keep a new key."
  },
  {
   "property": "C73",
   "status": "partial",
   "theorems": [
    "C73_founders_have_valid_parent_nodes",
    "C73_accepted_messages_keep_parent_nodes_valid",
    "C73_joiners_have_valid_parent_nodes_refuted",
    "C73_joiners_have_linked_parent_nodes_partial"
   ],
   "note": "REFUTED for joiners: verifyParentHashes looks for the parent hash in the resolution of a child but not whether the other nodes of the resolution are the unmerged leaves of the parent node (witness by evaluation: Dave joins such a tree). Proved: founders have valid parent nodes, every accepted message (proposals, truncation, growth, additions, update paths) keeps them valid, and joiners have the first part of the condition. Rejected messages and CreateWelcome are not covered: they can change the tree (C44, C45)."
  },
  {
   "property": "C74",
   "status": "proved",
   "theorems": [
    "C74_valid_commits_are_accepted",
    "C74_proposals_are_accepted",
    "C74_application_data_is_returned"
   ],
   "note": "Completeness, where C38, C24, C70 and C67 are soundness. delivered is stated with the encodings of RFC 9420 and its key schedule, not with the reader of the code. The provisos of the statement are restrictions of the code: decryptPathSecrets does not exclude new leaves (C50) and supportedCreds counts repetitions (C22)."
  },
  {
   "property": "C75",
   "status": "proved",
   "theorems": [
    "C75_valid_welcomes_are_accepted"
   ],
   "note": "Sizes below 2^28 bytes. Members list each credential type once (see C21); path secrets are limited by the shadowing bug of C52."
  },
  {
   "property": "C76",
   "status": "proved",
   "theorems": [
    "C76_packages_can_be_generated",
    "C76_groups_can_be_created",
    "C76_members_can_send",
    "C76_members_can_invite"
   ],
   "note": "Key generation cannot fail in the model (crypto_ok), and compact bounds signatures and public keys by 64 KiB. The limit of the code is 2^30 - 1 bytes per vector; the theorems ask for less than 2^26 bytes of input."
  },
  {
   "property": "C77",
   "status": "proved",
   "theorems": [
    "C77_who_accepts_a_commit_agrees",
    "C77_who_accepts_a_message_agrees",
    "C77_who_accepts_the_same_messages_agrees"
   ],
   "note": "No hypothesis on the cryptography: the exceptional case exhibits the two colliding path secrets, each obtained by the member from the path with a private key it holds."
  },
  {
   "property": "C78",
   "status": "proved",
   "theorems": [
    "C78_members_with_one_epoch_secret_have_one_view",
    "C78_members_with_one_epoch_secret_have_one_past",
    "C78_same_epoch_secret_same_view",
    "C78_there_is_a_joiner_secret",
    "C78_same_epoch_secret_same_past",
    "C78_there_is_a_commit_secret"
   ],
   "note": "The laws of crypto_ok used are the lengths of hash and KDF outputs. wf_nodes and wf_groupContext say that integers are in the range of their Go types and that the protocol version is 1. C87 proves both for members whose calls had well-formed key packages, and the last two theorems are without these hypotheses. The interim transcript hash of the new epoch is not covered, because the confirmation tag is not checked (C46)."
  },
  {
   "property": "C79",
   "status": "proved",
   "theorems": [
    "C79_who_joins_with_one_welcome_agrees"
   ],
   "note": "No hypothesis on the cryptography. The exceptional case is a ciphertext that opens under two keys, which AEADs do not exclude; the theorem exhibits both joiner secrets."
  },
  {
   "property": "C80",
   "status": "proved",
   "theorems": [
    "C80_members_follow_histories"
   ],
   "note": "By induction over the messages, from C50 (one commit), C72 (private keys) and C74. The exception for new leaves beside a member is the defect of C50: decryptPathSecrets does not exclude the leaves the commit adds."
  },
  {
   "property": "C81",
   "status": "proved",
   "theorems": [
    "C81_pending_proposals_were_signed_in_this_epoch",
    "C81_committed_proposals_are_rightly_attributed",
    "C81_an_accepted_commit_carries_out_rightly_attributed_proposals",
    "C81_a_proposal_reference_stands_for_one_message",
    "C81_a_key_package_reference_stands_for_one_package"
   ],
   "note": "No law of cryptography is assumed; a collision is two named hash calls with different inputs and one output. The reference of a proposal covers its sender, group and epoch, as the whole AuthenticatedContent is hashed."
  },
  {
   "property": "C82",
   "status": "proved",
   "theorems": [
    "C82_who_accepts_a_commit_agrees_whatever_is_pending",
    "C82_who_accepts_the_same_commits_agrees"
   ],
   "note": "C77 without the condition that both members hold the same pending proposals, using C81. Rejected messages and invitations are allowed where they change nothing; C44 and C45 say when they do."
  },
  {
   "property": "C83",
   "status": "proved",
   "theorems": [
    "C83_leaves_are_kept",
    "C83_where_leaves_come_from",
    "C83_a_leaf_stays_until_it_is_removed_or_its_member_signs_another"
   ],
   "note": "From C70 (the tree after a commit) and C81 (who signed the proposals); signatures are those that verify, no law of cryptography is assumed. Leaf indices above 2^31 designate leaves modulo 2^31 (C27, C54), and the signature is checked with the key of the leaf designated."
  },
  {
   "property": "C84",
   "status": "partial",
   "theorems": [
    "C84_memory_beyond_the_input_refuted",
    "C84_the_count_is_of_the_same_decoder",
    "C84_all_messages_partial",
    "C84_accepted_messages_partial",
    "C84_accepted_trees_partial",
    "C84_group_secrets_partial"
   ],
   "note": "REFUTED for the code as it is: readOpaqueVec makes a buffer of the announced length before it looks at the input (mls.go:60), so an 8-byte message makes the decoder allocate 2^30-1 bytes, and an accepted key package of 159 bytes does as well. The _partial theorems prove a factor of 2^30-1 for all messages, and that accepted messages take at most their length unless a key package or group information in them has an empty signature; decoded ratchet trees take at most twice the length. Missing: rejected messages and empty signatures."
  },
  {
   "property": "C85",
   "status": "partial",
   "theorems": [
    "C85_work_is_not_limited_refuted",
    "C85_every_member_can_ask_for_any_number_of_steps",
    "C85_only_members_can_ask_for_steps_partial",
    "C85_steps_of_an_opened_message_partial"
   ],
   "note": "REFUTED for the code as it is: the receiver does as many ratchet steps as the generation in the sender data says (group.go:362, a TODO), so every member can make the others do up to 2^32-1 steps with a short message, which is then accepted. The _partial theorems prove that only messages of this group and epoch with sender data encrypted under the epoch's secret cost any step, at most the generation in them, and that an opened message costs exactly that many. Missing: a limit."
  },
  {
   "property": "C86",
   "status": "proved",
   "theorems": [
    "C86_parent_nodes_after_a_commit",
    "C86_parent_nodes_over_histories",
    "C86_parent_nodes_after_an_invitation",
    "C86_founders_have_no_parent_nodes"
   ],
   "note": "over x i is stated for node numbers and trees of any height, so that it does not change when the tree grows or is cut. Which node gets which key of the path is C70; that the key of a committer is new is not checked by the code (C53)."
  },
  {
   "property": "C87",
   "status": "proved",
   "theorems": [
    "C87_members_hold_well_formed_values",
    "C87_what_members_encode_decodes_to_the_same"
   ],
   "note": "Messages and Welcomes are any bytes and values. That the encoding of a whole tree decodes to the same tree is the subject of C88."
  },
  {
   "property": "C88",
   "status": "partial",
   "theorems": [
    "C88_founders_trees_end_with_a_member",
    "C88_messages_keep_trees_ending_with_a_member",
    "C88_invitations_keep_trees_ending_with_a_member",
    "C88_encoded_trees_are_read_back_whole_partial",
    "C88_invitations_carry_the_whole_tree_partial",
    "C88_encoded_trees_are_read_back_whole_refuted",
    "C88_invitations_carry_the_whole_tree_refuted"
   ],
   "note": "REFUTED: GroupFromWelcome does not refuse a tree whose encoding ends with blank nodes, which section 12.4.3.3 of RFC 9420 tells clients to refuse (C71). If these make the right half of the tree blank, the joiner keeps the tree at this size, and when they invite someone the tree is sent without the blank nodes and read back smaller, so its tree hash is not the one in the group information and the new member cannot join. The partial theorems prove the claim for the members whose tree has a member in its right half: the tree of a founder has, and neither messages nor invitations change that. Example: Alice's tree after a commit, and Dave's."
  },
  {
   "property": "C89",
   "status": "proved",
   "theorems": [
    "C89_the_count_is_of_the_same_function",
    "C89_checking_a_tree_takes_n_log_n_hashes"
   ],
   "note": "Counted in HashWork.v: the hashes of tree hashes and parent hashes, and the leaf nodes verified (one signature each). Not counted: comparisons of keys and of the entries of unmerged leaf lists. Work for other messages: C85."
  },
  {
   "property": "C90",
   "status": "partial",
   "theorems": [
    "C90_joined_trees_list_their_extensions",
    "C90_commits_keep_extensions_listed_partial",
    "C90_commits_keep_extensions_listed_refuted",
    "C90_paths_keep_credentials_supported_partial",
    "C90_paths_keep_credentials_supported_refuted",
    "C90_members_have_the_required_capabilities_refuted"
   ],
   "note": "REFUTED: (1) leaf nodes of add proposals are not verified, so a member with an extension that they do not list is added; (2) the leaf node of an update path may list no credential types, although section 7.3 of RFC 9420 asks for support of all the types in use; verify only looks at whether the others list its own type; (3) required_capabilities is not looked at (a TODO in tree.go). The partial theorems prove what holds: joined trees have the first property (the second is C59), commits keep both if the leaves that they bring satisfy what is not checked. Example: a commit with a path that keeps both."
  },
  {
   "property": "C91",
   "status": "proved",
   "theorems": [
    "C91_application_messages_show_their_length_only",
    "C91_application_messages_hide_their_data",
    "C91_commits_show_their_length_only"
   ],
   "note": "Stated over ideal encryption: what is derived from a secret is secret, and a text sealed with a secret key shows its length only. The theorem is about one message at a time; that keys are reused within an epoch is C36. Examples: two groups of the same name; and what happens when the epoch secret is known."
  },
  {
   "property": "C92",
   "status": "proved",
   "theorems": [
    "C92_welcomes_show_their_addressees_only"
   ],
   "note": "Ideal encryption as for C91; the key packages and the randomness of the HPKE encryptions are the same on both sides, since references and KEM outputs are in the clear. Example: a guest invited to two groups."
  },
  {
   "property": "C93",
   "status": "proved",
   "theorems": [
    "C93_commits_erase_the_secrets_of_the_epoch"
   ],
   "note": "Stated over ideal key derivation: the result does not tell from which secret it was derived. The private keys of the member's path are not meant: they outlive epochs (C86). Example: a member who hears an addition."
  },
  {
   "property": "C94",
   "status": "proved",
   "theorems": [
    "C94_data_comes_from_its_sender",
    "C94_messages_come_from_their_senders",
    "C94_sent_data_is_vouched_for"
   ],
   "note": "No property of signatures is assumed: the theorem speaks about the bytes that were verified, and says what follows if they were signed with some private key by one of the calls. What calls sign is stated in SpecOrigin.v; further theorems show that what is sent is indeed vouched for. Replays within the epoch are C36."
  },
  {
   "property": "C95",
   "status": "proved",
   "theorems": [
    "C95_joiners_are_in_the_group_of_the_signer",
    "C95_sent_invitations_are_vouched_for"
   ],
   "note": "Stated as C94. The tree is the same if the inviting member's tree has no blank right half; otherwise it is what the encoding decodes to (C88). That equal confirmation tags come from equal secrets is the collision resistance of the MAC, not assumed."
  },
  {
   "property": "C96",
   "status": "proved",
   "theorems": [
    "C96_added_members_have_generated_their_packages",
    "C96_generated_packages_are_vouched_for"
   ],
   "note": "Stated as C94. Key packages given to CreateWelcome are not verified by the sender, see C57 and C90; the receivers verify them."
  },
  {
   "property": "C97",
   "status": "proved",
   "theorems": [
    "C97_messages_do_not_depend_on_the_clock",
    "C97_joining_depends_on_the_clock_for_lifetimes_only"
   ],
   "note": "The lifetimes of key packages that are added are never checked, see C48: the first theorem holds because the leaf of a path has no lifetime."
  },
  {
   "property": "C98",
   "status": "proved",
   "theorems": [
    "C98_members_respond_alike",
    "C98_members_accept_alike"
   ],
   "note": "No hypothesis on the cryptography or on the sender. The answers of members to update paths are the subject of C49, C50, C77 and C80."
  },
  {
   "property": "C99",
   "status": "proved",
   "theorems": [
    "C99_a_member_who_accepts_reads_the_path",
    "C99_another_member_accepts_exactly_if_they_read_the_path"
   ],
   "note": "Complements C98: so the members who stay behind after a commit that others accept are those for whom the path has no readable secret. The resolution is taken with all unmerged leaves, new members included, as the code does; see C50. Example: a path with a garbled secret for one member, which the other accepts."
  },
  {
   "property": "C100",
   "status": "proved",
   "theorems": [
    "C100_welcomes_do_not_depend_on_the_epoch_secret",
    "C100_welcomes_do_not_show_the_init_secret"
   ],
   "note": "The first theorem needs no assumption on the cryptography and speaks of the Welcome only: the commit message does depend on the epoch secret, through the membership tag. The second takes the one-way condition of C93 for the key derivation, which oblivious satisfies together with the laws of crypto_ok. What outsiders and removed members learn is the subject of C91-C93 and C67."
  },
  {
   "property": "C101",
   "status": "proved",
   "theorems": [
    "C101_only_the_proposals_referred_to_matter",
    "C101_other_proposals_do_not_matter",
    "C101_repeated_proposals_do_not_matter",
    "C101_the_order_of_arrival_does_not_matter",
    "C101_members_respond_alike",
    "C101_invitations_do_not_depend_on_pending_proposals"
   ],
   "note": "No hypothesis on the cryptography. The statement for one member covers commits with update paths too; the one for two members extends C98 to members with different pending proposals, for paths see C99. That CreateWelcome ignores pending proposals, which RFC 9420 asks committers to include, follows from the last theorem."
  },
  {
   "property": "C102",
   "status": "proved",
   "theorems": [
    "C102_the_order_of_proposals_does_not_matter",
    "C102_reordered_commits_give_the_same_tree"
   ],
   "note": "The hypothesis that leaf indexes are below 2^31 excludes the wrap of doubled leaf indexes (C27, C54), with which a commit can update one leaf twice. The order of additions does matter: it decides who gets which leaf (C13)."
  },
  {
   "property": "C103",
   "status": "proved",
   "theorems": [
    "C103_one_group_context_comes_from_one_list_of_commits",
    "C103_messages_that_are_acted_on_come_from_members_with_the_same_past",
    "C103_data_that_is_delivered_comes_from_a_member_with_the_same_past"
   ],
   "note": "That the verified bytes were signed by a call (vouched) is a hypothesis, as in C94; unforgeability is not proved. The confirmation tag of the last commit is not covered by the group context and is never verified (C46)."
  },
  {
   "property": "C104",
   "status": "proved",
   "theorems": [
    "C104_the_name_of_a_suite_spells_its_algorithms",
    "C104_other_suites_are_shown_as_numbers",
    "C104_different_suites_have_different_names"
   ],
   "note": ""
  },
  {
   "property": "C105",
   "status": "proved",
   "theorems": [
    "C105_the_count_is_of_the_same_function",
    "C105_work_is_linear",
    "C105_a_message_does_not_inflate_the_tree"
   ],
   "note": "What is counted are cryptographic operations, not the comparisons of keys, which are quadratic in the number of members."
  },
  {
   "property": "C106",
   "status": "proved",
   "theorems": [
    "C106_the_counts_are_of_the_same_functions",
    "C106_creating_takes_five_operations",
    "C106_joining_takes_n_log_n_operations",
    "C106_a_welcome_does_not_inflate_the_tree",
    "C106_sending_is_linear_in_the_tree",
    "C106_inviting_is_linear_in_the_tree"
   ],
   "note": "What is counted are cryptographic operations, not the comparisons of keys, which are quadratic in the number of members."
  },
  {
   "property": "C107",
   "status": "proved",
   "theorems": [
    "C107_what_is_accepted_now_is_rejected_in_later_epochs",
    "C107_a_commit_is_accepted_once"
   ],
   "note": ""
  },
  {
   "property": "C108",
   "status": "partial",
   "theorems": [
    "C108_replayed_proposals_pile_up_refuted",
    "C108_a_message_adds_one_proposal_at_most_partial"
   ],
   "note": "REFUTED: processProposal appends every proposal that it accepts, and nothing recognises a replay, so n copies of one message leave n pending proposals (for every proposal message that is accepted, and every n). Proved instead: a message adds one proposal at most; and commits are not affected by the copies (C101)."
  },
  {
   "property": "C109",
   "status": "partial",
   "theorems": [
    "C109_packages_are_checked_before_inviting_refuted",
    "C109_members_check_the_packages_partial"
   ],
   "note": "REFUTED: CreateWelcome verifies nothing (TODO in the code): whatever packages can be encoded, it returns a Welcome and a commit, and exactly if the packages are not valid every member who agrees with the inviter rejects the commit. In the example the invited joins an epoch that nobody else enters. Proved instead: a member who accepts the commit has found the packages valid."
  },
  {
   "property": "C110",
   "status": "partial",
   "theorems": [
    "C110_reinit_ends_the_group_refuted",
    "C110_reinit_is_committed_alone_partial"
   ],
   "note": "REFUTED: a committed reinit proposal is checked to be alone and then forgotten. For every accepted commit of a reinit proposal without path the member can still send messages, which everyone in the epoch reads, and invite. Proved instead: such a commit contains nothing else, and changes neither the tree (without a path) nor the identity of the group."
  },
  {
   "property": "C111",
   "status": "partial",
   "theorems": [
    "C111_removals_remove_members_refuted",
    "C111_removals_are_in_the_tree_partial"
   ],
   "note": "REFUTED: nothing looks at the removed leaf before it is blanked. For every commit that is otherwise acceptable, a removal of a leaf without member is accepted. Proved instead: the removed leaf is at least inside the tree."
  },
  {
   "property": "C112",
   "status": "proved",
   "theorems": [
    "C112_application_data",
    "C112_proposals",
    "C112_commits_without_a_path",
    "C112_commits_with_a_path",
    "C112_accepted_commits",
    "C112_nothing_else"
   ],
   "note": "The sizes are assumed to be below 2^27 (the limit of the code is 2^30 - 1 for vectors). For commits with a path the tree after the proposals is assumed to be encodable and without repeated credential types in capabilities (finding C22)."
  },
  {
   "property": "C113",
   "status": "proved",
   "theorems": [
    "C113_welcomes_accepted_exactly"
   ],
   "note": "Sizes are assumed to be below 2^28 and no leaf to list a credential type twice (finding C22). That the suite of the key package is not compared with that of the Welcome, and that all secrets above the common ancestor come from the same derivation (finding C52), shows in the conditions."
  },
  {
   "property": "C114",
   "status": "partial",
   "theorems": [
    "C114_founders_are_checked_refuted",
    "C114_new_members_check_the_leaves_partial",
    "C114_valid_founders_can_invite_partial"
   ],
   "note": "REFUTED: CreateGroup verifies nothing: it makes a group from every key package of a known suite that can be encoded, and as long as the leaf node is not valid every Welcome made from the group is rejected by everyone it is for. Proved instead: whoever joins has found every leaf of the inviter's tree valid, for all groups obtained through the API; and groups founded with valid packages can be joined."
  },
  {
   "property": "C115",
   "status": "partial",
   "theorems": [
    "C115_keys_of_blank_nodes_are_erased_refuted",
    "C115_exactly_the_blanked_are_kept_partial",
    "C115_founders_have_no_such_keys_partial",
    "C115_joiners_have_no_such_keys_partial"
   ],
   "note": "REFUTED: processCommit copies the private keys by position and erases none, so every key the member had of a node that the commit made blank is kept until an update path overwrites it or the tree shrinks. Proved instead: this is the only way to hold such a key; founders and joiners have none, and after a commit there is one exactly if a node was blanked whose key the member had."
  },
  {
   "property": "C116",
   "status": "partial",
   "theorems": [
    "C116_joining_notices_wrong_private_keys_refuted",
    "C116_founding_notices_wrong_private_keys_refuted",
    "C116_who_signs_with_a_wrong_key_is_not_heard_refuted",
    "C116_wrong_initial_keys_are_noticed_partial",
    "C116_right_signature_keys_sign_partial"
   ],
   "note": "REFUTED: the private encryption and signature keys are stored without a look: whoever can join or found a group with a package can do so with any others in place of them, and gets the same group; messages signed with such a key are made without error and rejected by every member. Proved instead: the private initial key has opened the secrets of the Welcome; and exactly those can sign who joined with the right signature key."
  },
  {
   "property": "C117",
   "status": "proved",
   "theorems": [
    "C117_key_packages_with_grease_are_read",
    "C117_key_packages_with_grease_are_accepted",
    "C117_leaf_nodes_with_grease_are_accepted",
    "C117_grease_does_not_change_the_supported_credentials",
    "C117_trees_with_grease_are_accepted"
   ],
   "note": "The signatures of the package with and without the values are each assumed to verify, as they are over different bytes; extensions with GREASE types have to be listed in the capabilities of the leaf, as section 13.5 asks."
  },
  {
   "property": "C118",
   "status": "proved",
   "theorems": [
    "C118_together_or_one_after_the_other",
    "C118_one_commit_or_two",
    "C118_removing_undoes_adding"
   ],
   "note": "The first of the two commits is one without update path; a path changes the tree by itself."
  },
  {
   "property": "C119",
   "status": "partial",
   "theorems": [
    "C119_repeated_extensions_are_accepted_refuted",
    "C119_package_extensions_are_not_looked_at_refuted",
    "C119_repeated_leaf_extensions_are_not_noticed_refuted",
    "C119_only_the_first_ratchet_tree_counts_partial"
   ],
   "note": "REFUTED: the decoder does not compare the types of the extensions, KeyPackage.verify does not look at the extensions of the package at all, and leafNode.verify only asks which types there are; a member with repeated extensions is accepted into the tree. Proved instead: findExtensionData takes the first, so that extensions appended to a group info, even a second ratchet tree, change nothing for the one who joins."
  },
  {
   "property": "C120",
   "status": "partial",
   "theorems": [
    "C120_updates_bring_new_keys_refuted",
    "C120_paths_bring_new_parent_keys_refuted",
    "C120_paths_bring_new_leaf_keys_partial"
   ],
   "note": "REFUTED: the leaf node of an update proposal is not compared with the one it replaces, and the keys of a path are compared with those of the leaves only (ratchetTree.keys), so that an update with the old key and a path with the old key of the root are accepted (witnesses by evaluation). Proved: the leaf of a committer with a path gets another encryption key, and neither the old one nor that of another leaf is in the path (leaf indices below 2^31, see C27)."
  },
  {
   "property": "C121",
   "status": "partial",
   "theorems": [
    "C121_members_can_be_invited_after_a_commit_refuted",
    "C121_nobody_joins_a_group_with_an_unsigned_leaf_refuted",
    "C121_the_leaf_can_be_removed_partial",
    "C121_the_invited_join_exactly_if_the_tree_is_valid_partial"
   ],
   "note": "REFUTED: the leaf node of an update proposal is put into the tree without a check of its signature, while those who join check every leaf; so one update proposal, once committed, keeps everyone out (witness by evaluation), whoever makes the Welcome and however. Proved instead: a commit that removes this leaf ends it, and those whom a member invites join exactly if the tree with the new members is valid (for members whose tree ends with a member, see C88, who still hold the key of their leaf, and if no leaf lists a credential type twice, see C22). For groups in which all leaves are valid see C48."
  },
  {
   "property": "C122",
   "status": "partial",
   "theorems": [
    "C122_members_do_not_take_names_refuted",
    "C122_credentials_are_not_looked_at_refuted",
    "C122_credentials_are_changed_by_their_members_partial"
   ],
   "note": "REFUTED: leafNode.verify looks at the type of the credential only (as its comment says), and there is no call by which the application could check the rest; Carol can take Alice's name in an update, which Alice accepts (witness by evaluation). Proved: the credential at a leaf is changed only by the member at this leaf, which has signed for it, unless the commit removes the leaf."
  },
  {
   "property": "C123",
   "status": "partial",
   "theorems": [
    "C123_who_follows_keeps_its_leaf_refuted",
    "C123_the_leaf_is_its_own_or_that_of_a_new_member_partial",
    "C123_who_is_not_removed_keeps_its_leaf_partial"
   ],
   "note": "REFUTED: processCommit does not look for its own leaf in the new tree, and keeps the private key of the leaf when the leaf is removed. A commit that removes a member and adds, at the same place, a key package with that member's encryption key (which is public) is accepted by the removed member too: it goes on reading the group, at the leaf of another, while the others reject what it sends (witness by evaluation). Proved instead: this is the only way; after every accepted commit the leaf is its own, or the commit removes it and adds whoever then has it. C51 is about removed members whose leaf is blank."
  },
  {
   "property": "C124",
   "status": "partial",
   "theorems": [
    "C124_receivers_learn_who_sent_a_message_refuted",
    "C124_own_messages_do_not_come_back_refuted",
    "C124_messages_name_their_senders_partial"
   ],
   "note": "REFUTED for all groups: the result is the data alone, so the same data from any two members of the epoch, the receiver itself included, give the same result. The sender is checked (C94) but not reported, and keys are not erased after use (C35, C36), so a message reflected to its sender is delivered to it. Proved instead: the content names the sender and is signed with the key of that member's leaf."
  },
  {
   "property": "C125",
   "status": "partial",
   "theorems": [
    "C125_read_messages_can_no_longer_be_decrypted_refuted",
    "C125_sent_messages_can_no_longer_be_decrypted_refuted",
    "C125_read_messages_are_rejected_after_the_next_commit_partial"
   ],
   "note": "REFUTED for all groups: keys are derived anew from the epoch secret for every message, which is kept until the next commit. Whatever else is received in the epoch, every message read or sent in it can still be decrypted (the TODO in processPrivateMessage says so). C35 is the case where nothing comes in between. Proved instead: once a commit is accepted, the message is rejected."
  },
  {
   "property": "C126",
   "status": "partial",
   "theorems": [
    "C126_no_data_is_sent_before_proposals_are_committed_refuted",
    "C126_commits_carry_out_the_proposals_received_refuted",
    "C126_commits_carry_out_the_removals_they_refer_to_partial"
   ],
   "note": "REFUTED for all groups: neither CreateApplicationMessage nor CreateWelcome looks at the pending proposals. A member whose removal was proposed reads what is sent afterwards, and the commit of CreateWelcome leaves the proposal out and makes all who accept it forget it (the TODO about section 12.4.1 in CreateWelcome). Proved instead: a commit that refers to the proposal of a removal carries it out."
  },
  {
   "property": "C127",
   "status": "partial",
   "theorems": [
    "C127_invitations_renew_the_secrets_refuted",
    "C127_copied_secrets_read_messages_refuted",
    "C127_update_paths_shut_out_copies_partial"
   ],
   "note": "REFUTED for the commits that the library makes: CreateWelcome always leaves the commit secret all zero, as RFC 9420 permits for additions, and there is no operation that commits with an update path, so a group whose members only use this library never heals. Proved instead: commits of others with an update path are never accepted without private keys."
  }
 ]
}