(** Every confirmation tag is accepted: C46. *)
From Verif Require Import TagFacts Witness.

(** ** C46 *)
(** Whatever the confirmation tag of a message to the group is, a commit that
    is accepted with some tag is accepted with this one, and the member is in
    the same epoch with the same secrets. *)
Theorem C46_the_tag_is_not_looked_at_refuted :
  forall (C : crypto) g raw raw' now ac c g' tag, crypto_ok C -> known_suite (gc_cipherSuite (gr_context g)) ->
  accepts_commit g raw now ac c g' -> delivered g raw' (with_tag ac tag) -> accepts_commit g raw' now (with_tag ac tag) c (after_tag g' tag).
Proof. exact @every_tag_accepted. Qed.
Print Assumptions C46_the_tag_is_not_looked_at_refuted.

(** Any member can give any tag to the public commit of another member. *)
Theorem C46_members_can_change_the_tags_of_others_refuted :
  forall (C : crypto) g raw now ac c g' tag, crypto_ok C -> known_suite (gc_cipherSuite (gr_context g)) ->
  accepts_commit g raw now ac c g' -> ac_wireFormat ac = 1 ->
  lenN (enc_authenticatedContentTBM 1 (ac_content ac) (gr_context g) (ac_auth (with_tag ac tag))) < 2 ^ 26 ->
  accepts_commit g (retagged g ac tag) now (with_tag ac tag) c (after_tag g' tag).
Proof. exact @every_public_commit_retagged. Qed.
Print Assumptions C46_members_can_change_the_tags_of_others_refuted.

(** The commit of Bob, without a tag *)
Example C46_example_retagged : exists ac c g',
  @accepts_commit toy ga w46raw clock ac c g' /\ ac_wireFormat ac = 1 /\ ad_confirmationTag (ac_auth ac) <> [] /\
  lenN (enc_authenticatedContentTBM 1 (ac_content ac) (gr_context ga) (ac_auth (with_tag ac []))) < 2 ^ 26 /\
  gr_interimTranscriptHash (@after_tag toy g' []) <> gr_interimTranscriptHash g'.
Proof.
  exists (publicContent (fst (fst w46))), (snd (fst w46)), (snd w46). split.
  - apply acceptedPublic_commit. rewrite w46_accepted. now destruct w46 as [[? ?] ?].
  - split; [reflexivity|]. split; [vm_compute; discriminate|]. split; [vm_compute; reflexivity|]. vm_compute. discriminate.
Qed.
