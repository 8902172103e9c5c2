(** Alice, Bob, Carol and Dave, and the calls they make. *)
From Verif Require Export OriginFacts TypesSamples.

Lemma g0_lawful : @lawful toy g0.
Proof. apply (lawful_created (C := toy) (str "grp") alice (zeros 32)); [apply kp_by_coding|]; vm_compute; reflexivity. Qed.
Lemma gb_lawful : @lawful toy gb.
Proof. apply (lawful_joined (C := toy) (fst (snd firstWelcome)) bob clock). vm_compute. reflexivity. Qed.
Lemma dave_wf : wf_keyPackage (kpp_public dave).
Proof. apply kp_by_coding. vm_compute. reflexivity. Qed.

Definition bobSays : call := CallMessage gb (str "hello") [] (str "efgh").
Definition bobAdds : call := CallWelcome gb [kpp_public dave] [] [] [str "z"] (str "efgh").
Definition aliceAdds : call := CallWelcome g0 [kpp_public bob; kpp_public carol] [] [] [str "x"; str "y"] (str "abcd").
Definition daveStarts : call := CallKeyPackage 1 (mkCredential 1 (str "dave") []) (unixTime 2000000000) (unixTime 2000000000)
  (str "dave init") (str "dave enc") (str "dave sig") [] [].

Lemma origin_example :
  @lawful toy ga /\ gr_context gb = gr_context ga /\
  @unmarshalAndProcessMessage toy ga w35raw clock = (ga, Ok (Some (str "hello"))) /\
  @vouched toy (eq bobSays) (gr_signaturePriv gb) (SignFramedContent 2 (member_content gb (BApplication (str "hello"))) (gr_context ga)) /\
  @unmarshalAndProcessMessage toy ga (snd (snd secondWelcome)) clock = (qa, Ok None) /\
  @vouched toy (eq bobAdds) (gr_signaturePriv gb) (SignFramedContent 2 (member_content gb (additions [kpp_public dave])) (gr_context ga)).
Proof.
  assert (Ec : gr_context gb = gr_context ga) by (vm_compute; reflexivity).
  split; [exact ga_lawful|]. split; [exact Ec|]. rewrite <- Ec.
  assert (E1 : @createApplicationMessage toy gb (str "hello") [] (str "efgh") = Ok w35raw) by (vm_compute; reflexivity).
  assert (E2 : @createWelcome toy gb [kpp_public dave] [] [] [str "z"] (str "efgh") = (fst secondWelcome, Ok (fst (snd secondWelcome), snd (snd secondWelcome)))) by (vm_compute; reflexivity).
  assert (E3 : @unmarshalAndProcessMessage toy ga (snd (snd secondWelcome)) clock = (qa, Ok None)) by (vm_compute; reflexivity).
  split; [vm_compute; reflexivity|].
  split; [exact (application_vouched (C := toy) (eq bobSays) gb (str "hello") [] (str "efgh") w35raw gb_lawful E1 eq_refl)|].
  split; [exact E3|].
  exact (proj1 (welcome_vouched (C := toy) (eq bobAdds) gb [kpp_public dave] [] [] [str "z"] (str "efgh") _ _ _ toy_ok gb_lawful (Forall_cons _ dave_wf (Forall_nil _)) E2 eq_refl)).
Qed.

Lemma invited_example :
  @lawful toy g0 /\ ends_with_member (gr_value g0) /\ @groupFromWelcome toy (fst (snd firstWelcome)) bob clock = Ok gb /\
  @sends_vouched toy (eq aliceAdds) g0 [kpp_public bob; kpp_public carol] [] (fst (snd firstWelcome)).
Proof.
  assert (E : @createWelcome toy g0 [kpp_public bob; kpp_public carol] [] [] [str "x"; str "y"] (str "abcd") = (fst firstWelcome, Ok (fst (snd firstWelcome), snd (snd firstWelcome)))) by (vm_compute; reflexivity).
  split; [exact g0_lawful|]. split.
  { right. exists 0. split; [vm_compute; discriminate|vm_compute; discriminate]. }
  split; [vm_compute; reflexivity|].
  refine (welcome_vouched (C := toy) (eq aliceAdds) g0 [kpp_public bob; kpp_public carol] [] [] [str "x"; str "y"] (str "abcd") _ _ _ toy_ok g0_lawful _ E eq_refl).
  constructor; [|constructor; [|constructor]]; apply kp_by_coding; vm_compute; reflexivity.
Qed.

Lemma package_example :
  crypto_ok toy /\ @lawful toy ga /\ @unmarshalAndProcessMessage toy ga (snd (snd secondWelcome)) clock = (qa, Ok None) /\
  leaf_at (gr_value qa) 3 = Some (kp_leafNode (kpp_public dave)) /\ leaf_at (gr_value ga) 3 = None /\
  @vouched toy (eq daveStarts) (kpp_signatureKey dave) (SignKeyPackage (kpp_public dave)).
Proof.
  assert (E : person 1 "dave" = Ok dave) by (vm_compute; reflexivity).
  split; [exact toy_ok|]. split; [exact ga_lawful|]. split; [vm_compute; reflexivity|]. split; [vm_compute; reflexivity|]. split; [vm_compute; reflexivity|].
  refine (package_vouched (C := toy) (eq daveStarts) 1 (mkCredential 1 (str "dave") []) (unixTime 2000000000) (unixTime 2000000000)
    (str "dave init") (str "dave enc") (str "dave sig") [] [] dave _ _ E eq_refl).
  - reflexivity.
  - vm_compute. auto.
Qed.
