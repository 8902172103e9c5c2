(** Proofs about what receivers are told of the sender (C124). *)
From Verif Require Export OutcomeFacts DeliveryFacts GroupFacts.

Section WithCrypto.
Context {C : crypto}.
Theorem senders_not_told a b g data ra rga rb rgb ma mb now : crypto_ok C -> obtained a -> obtained b -> can_sign a -> can_sign b ->
  same_epoch a g -> same_epoch b g -> lenN rga = 4 -> lenN rgb = 4 ->
  createApplicationMessage a data ra rga = Ok ma -> createApplicationMessage b data rb rgb = Ok mb ->
  unmarshalAndProcessMessage g ma now = unmarshalAndProcessMessage g mb now.
Proof.
  intros HC Oa Ob Sa Sb Ea Eb La Lb Ha Hb.
  rewrite (message_outcome a g data ra rga ma now HC Oa Sa Ea La Ha), (message_outcome b g data rb rgb mb now HC Ob Sb Eb Lb Hb). reflexivity.
Qed.
Theorem own_messages_come_back g data rs rg m now : crypto_ok C -> obtained g -> can_sign g -> lenN rg = 4 ->
  createApplicationMessage g data rs rg = Ok m -> unmarshalAndProcessMessage g m now = (g, Ok (Some data)).
Proof. intros HC O Sg L H. apply (message_outcome g g data rs rg m now HC O Sg); auto. unfold same_epoch. splits; reflexivity. Qed.
Theorem senders_named a g data ra rga ma : crypto_ok C -> obtained a -> can_sign a -> same_epoch a g -> lenN rga = 4 ->
  createApplicationMessage a data ra rga = Ok ma ->
  exists ac, carries g ma ac /\ authentic g ac /\ fc_sender (ac_content ac) = SMember (gr_myLeafIndex a) /\ fc_body (ac_content ac) = BApplication data.
Proof.
  intros HC O (l & alg & Hl & Halg & Hp) Hsame Hg H. pose proof (obtained_sane _ O) as Sa.
  destruct (cipherSuiteDescriptions (gc_cipherSuite (gr_context a))) as [d|] eqn:Hd; [|discriminate]. cbn in Halg. injection Halg as <-.
  unfold createApplicationMessage, signPrivateMessageContent, signAuthenticatedContent in H.
  apply rbind_ok in H. destruct H as (pc & Hpc & H).
  apply rbind_ok in Hpc. destruct Hpc as (ac & Hac & Hpc). apply Ok_inj in Hpc. subst pc.
  apply rbind_ok in Hac. destruct Hac as (tbs & Htbs & Hac).
  apply rbind_ok in Hac. destruct Hac as (sg & Hsg & Hac). apply Ok_inj in Hac. subst ac. cbn [ac_auth ownContent fc_body] in H.
  pose proof (signed_verifies _ _ _ _ _ _ _ _ Hd Hp Hsg) as Hv.
  destruct (private_delivered a g (BApplication data) (mkAuthData sg []) rga ma l tbs d HC (sane_epoch _ Sa) (sane_index _ Sa) I (or_intror eq_refl) Hg Hsame Hl Htbs Hd Hv H) as (m & Hm & Ho).
  eexists. destruct (openPrivateMessage_ok _ _ _ _ Hm Ho) as [K1 K2]. split; [exact K1|]. split; [exact K2|]. split; reflexivity.
Qed.
End WithCrypto.
