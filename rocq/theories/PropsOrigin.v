(** Who has made what is accepted: C94 to C96. *)
From Verif Require Import OriginSamples.

(** ** C94 *)
(** Data is received from the member that called CreateApplicationMessage with
    it, in the same group, epoch, tree and history: the signature that was
    checked is one of [priv], unless nobody with this key has signed the bytes
    that were checked. *)
Theorem C94_data_comes_from_its_sender :
  forall (C : crypto) did g raw now g' d, lawful g -> unmarshalAndProcessMessage g raw now = (g', Ok (Some d)) ->
  exists ac li key, carries g raw ac /\ sent_with_key g ac li key /\
    let o := SignFramedContent (ac_wireFormat ac) (ac_content ac) (gr_context g) in
    VerifyWithLabel (gc_cipherSuite (gr_context g)) key (signed_label o) (signed_content o) (ad_signature (ac_auth ac)) /\
    forall priv, vouched did priv o -> exists gs rs rg, did (CallMessage gs d rs rg) /\
      gr_signaturePriv gs = priv /\ gr_context gs = gr_context g /\ gr_myLeafIndex gs = li.
Proof. exact @data_made. Qed.
Print Assumptions C94_data_comes_from_its_sender.

(** Whatever is accepted or changes the group was made by such a call, for this
    body: commits by CreateWelcome, and no proposals and no public messages. *)
Theorem C94_messages_come_from_their_senders :
  forall (C : crypto) did g raw now g' r, lawful g -> unmarshalAndProcessMessage g raw now = (g', r) -> g' <> g \/ is_ok r = true ->
  exists ac li key, carries g raw ac /\ sent_with_key g ac li key /\
    let o := SignFramedContent (ac_wireFormat ac) (ac_content ac) (gr_context g) in
    VerifyWithLabel (gc_cipherSuite (gr_context g)) key (signed_label o) (signed_content o) (ad_signature (ac_auth ac)) /\
    forall priv, vouched did priv o -> made_by_call did priv g li ac.
Proof. exact @messages_made. Qed.
Print Assumptions C94_messages_come_from_their_senders.

(** What is sent is vouched for. *)
Theorem C94_sent_data_is_vouched_for :
  forall (C : crypto) (did : call -> Prop) g data rs rg raw,
  lawful g -> createApplicationMessage g data rs rg = Ok raw -> did (CallMessage g data rs rg) ->
  vouched did (gr_signaturePriv g) (SignFramedContent 2 (member_content g (BApplication data)) (gr_context g)).
Proof. exact @application_vouched. Qed.
Print Assumptions C94_sent_data_is_vouched_for.

(** Bob says hello and adds Dave; Alice hears both. *)
Example C94_example :
  @lawful toy ga /\ gr_context gb = gr_context ga /\
  @unmarshalAndProcessMessage toy ga w35raw clock = (ga, Ok (Some (str "hello"))) /\
  @vouched toy (eq bobSays) (gr_signaturePriv gb) (SignFramedContent 2 (member_content gb (BApplication (str "hello"))) (gr_context ga)) /\
  @unmarshalAndProcessMessage toy ga (snd (snd secondWelcome)) clock = (qa, Ok None) /\
  @vouched toy (eq bobAdds) (gr_signaturePriv gb) (SignFramedContent 2 (member_content gb (additions [kpp_public dave])) (gr_context ga)).
Proof. exact origin_example. Qed.

(** ** C95 *)
Theorem C95_joiners_are_in_the_group_of_the_signer :
  forall (C : crypto) did w kpp now g, groupFromWelcome w kpp now = Ok g ->
  exists gi signer, leaf_at (gr_value g) (designated (gi_signer gi)) = Some signer /\
    let o := SignGroupInfo gi in
    VerifyWithLabel (gc_cipherSuite (gr_context g)) (ln_signatureKey signer) (signed_label o) (signed_content o) (gi_signature gi) /\
    forall priv, vouched did priv o -> invited_by_call did priv g (gi_signer gi).
Proof. exact @welcomes_made. Qed.
Print Assumptions C95_joiners_are_in_the_group_of_the_signer.

Theorem C95_sent_invitations_are_vouched_for :
  forall (C : crypto) (did : call -> Prop) g kps rs ri rh rg g1 w raw, crypto_ok C -> lawful g -> Forall wf_keyPackage kps ->
  createWelcome g kps rs ri rh rg = (g1, Ok (w, raw)) -> did (CallWelcome g kps rs ri rh rg) -> sends_vouched did g kps rs w.
Proof. exact @welcome_vouched. Qed.
Print Assumptions C95_sent_invitations_are_vouched_for.

(** Alice invites Bob and Carol. *)
Example C95_example :
  @lawful toy g0 /\ ends_with_member (gr_value g0) /\ @groupFromWelcome toy (fst (snd firstWelcome)) bob clock = Ok gb /\
  @sends_vouched toy (eq aliceAdds) g0 [kpp_public bob; kpp_public carol] [] (fst (snd firstWelcome)).
Proof. exact invited_example. Qed.

(** ** C96 *)
Theorem C96_added_members_have_generated_their_packages :
  forall (C : crypto) did g raw now ac c g' li, crypto_ok C -> lawful g ->
  accepts_commit g raw now ac c g' -> fc_sender (ac_content ac) = SMember li ->
  exists ps, commits g li c ps /\ forall k s, In (PAdd k, s) ps ->
    let o := SignKeyPackage k in
    VerifyWithLabel (gc_cipherSuite (gr_context g)) (ln_signatureKey (kp_leafNode k)) (signed_label o) (signed_content o) (kp_signature k) /\
    forall priv, vouched did priv o -> generated_by_call did priv k.
Proof. exact @members_made. Qed.
Print Assumptions C96_added_members_have_generated_their_packages.

Theorem C96_generated_packages_are_vouched_for :
  forall (C : crypto) (did : call -> Prop) cs cred t0 t1 r1 r2 r3 r4 r5 kpp, u16 cs -> wf_credential cred ->
  generateKeyPairPackage cs cred t0 t1 r1 r2 r3 r4 r5 = Ok kpp -> did (CallKeyPackage cs cred t0 t1 r1 r2 r3 r4 r5) ->
  vouched did (kpp_signatureKey kpp) (SignKeyPackage (kpp_public kpp)).
Proof. exact @package_vouched. Qed.
Print Assumptions C96_generated_packages_are_vouched_for.

(** Bob adds Dave. *)
Example C96_example :
  crypto_ok toy /\ @lawful toy ga /\ @unmarshalAndProcessMessage toy ga (snd (snd secondWelcome)) clock = (qa, Ok None) /\
  leaf_at (gr_value qa) 3 = Some (kp_leafNode (kpp_public dave)) /\ leaf_at (gr_value ga) 3 = None /\
  @vouched toy (eq daveStarts) (kpp_signatureKey dave) (SignKeyPackage (kpp_public dave)).
Proof. exact package_example. Qed.
