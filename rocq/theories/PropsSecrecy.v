(** What outsiders learn from messages, and what is left of an epoch that has
    ended: C91 to C93. *)
From Verif Require Import SecrecySamples.

(** ** C91 *)
(** Two application messages of the same group, epoch and length are the same to
    whoever cannot decrypt, whoever sent them and whatever they say. *)
Theorem C91_application_messages_show_their_length_only :
  forall (C : crypto) (secret : bytes -> Prop), ideal C secret ->
  forall g g' d d' rs rs' rg rg' m m', same_header g g' -> secret (gr_epochSecret g) -> secret (gr_epochSecret g') ->
  lenN rg = 4 -> lenN rg' = 4 -> createApplicationMessage g d rs rg = Ok m -> createApplicationMessage g' d' rs' rg' = Ok m' ->
  lenN m = lenN m' -> m = m'.
Proof. exact @application_hides. Qed.
Print Assumptions C91_application_messages_show_their_length_only.

(** That is the length of the data, if signatures are all of the same size. *)
Theorem C91_application_messages_hide_their_data :
  forall (C : crypto) (secret : bytes -> Prop), ideal C secret ->
  forall g g' d d' rs rs' rg rg' m m', sized_signatures C ->
  same_header g g' -> secret (gr_epochSecret g) -> secret (gr_epochSecret g') ->
  lenN rg = 4 -> lenN rg' = 4 -> createApplicationMessage g d rs rg = Ok m -> createApplicationMessage g' d' rs' rg' = Ok m' ->
  lenN d = lenN d' -> m = m'.
Proof. exact @application_hides_data. Qed.
Print Assumptions C91_application_messages_hide_their_data.

(** The same for the commits of CreateWelcome. *)
Theorem C91_commits_show_their_length_only :
  forall (C : crypto) (secret : bytes -> Prop), ideal C secret ->
  forall g g' kps kps' rs rs' ri ri' rh rh' rg rg' g1 g1' w w' m m',
  same_header g g' -> secret (gr_epochSecret g) -> secret (gr_epochSecret g') -> lenN rg = 4 -> lenN rg' = 4 ->
  createWelcome g kps rs ri rh rg = (g1, Ok (w, m)) -> createWelcome g' kps' rs' ri' rh' rg' = (g1', Ok (w', m')) ->
  lenN m = lenN m' -> m = m'.
Proof. exact @commit_hides. Qed.
Print Assumptions C91_commits_show_their_length_only.

(** Alice's and Bob's groups of the same name. *)
Example C91_example : exists g g' m,
  ideal veil secretly /\ sized_signatures veil /\ same_header g g' /\ secretly (gr_epochSecret g) /\ secretly (gr_epochSecret g') /\
  gr_epochSecret g <> gr_epochSecret g' /\ gr_signaturePriv g <> gr_signaturePriv g' /\
  @createApplicationMessage veil g (str "buy") [] (str "abcd") = Ok m /\
  @createApplicationMessage veil g' (str "tea") [] (str "efgh") = Ok m.
Proof. exact messages_example. Qed.

(** Not so for whoever knows the epoch secret. *)
Example C91_known_secret_example : exists g m m',
  ideal veil secretly /\ ~ secretly (gr_epochSecret g) /\
  @createApplicationMessage veil g (str "buy") [] (str "abcd") = Ok m /\
  @createApplicationMessage veil g (str "tea") [] (str "abcd") = Ok m' /\ m <> m' /\ lenN m = lenN m'.
Proof. exact messages_known. Qed.

(** ** C92 *)
(** Invitations of the same people are the same to whoever cannot decrypt, if
    their encrypted group information has the same length: from whichever
    member, to whichever group, in whichever epoch. *)
Theorem C92_welcomes_show_their_addressees_only :
  forall (C : crypto) (secret : bytes -> Prop), ideal C secret ->
  forall g g' kps rs rs' ri ri' rh rg rg' g1 g1' w w' m m',
  gc_cipherSuite (gr_context g) = gc_cipherSuite (gr_context g') -> secret (gr_initSecret g) -> secret (gr_initSecret g') ->
  Forall (fun kp => private C (kp_initKey kp)) kps ->
  createWelcome g kps rs ri rh rg = (g1, Ok (w, m)) -> createWelcome g' kps rs' ri' rh rg' = (g1', Ok (w', m')) ->
  lenN (w_encryptedGroupInfo w) = lenN (w_encryptedGroupInfo w') -> w = w'.
Proof. exact @welcome_hides. Qed.
Print Assumptions C92_welcomes_show_their_addressees_only.

Example C92_example : exists g1 g2 w m m',
  ideal veil secretly /\ secretly (gr_initSecret g1) /\ secretly (gr_initSecret g2) /\ private veil (kp_initKey (kpp_public guest)) /\
  gc_groupID (gr_context g1) <> gc_groupID (gr_context g2) /\ gr_epochSecret g1 <> gr_epochSecret g2 /\ gr_signaturePriv g1 <> gr_signaturePriv g2 /\
  snd (@createWelcome veil g1 [kpp_public guest] [] [] [str "x"] (str "abcd")) = Ok (w, m) /\
  snd (@createWelcome veil g2 [kpp_public guest] [] [] [str "x"] (str "abcd")) = Ok (w, m').
Proof. exact welcomes_example. Qed.

(** ** C93 *)
(** A member who accepts a commit is then in a state which does not depend on
    the secrets that it had before, but through key derivation. *)
Theorem C93_commits_erase_the_secrets_of_the_epoch :
  forall (C : crypto) (secret : bytes -> Prop), one_way C secret ->
  forall g e i p, secret (gr_epochSecret g) -> secret (gr_initSecret g) -> secret e -> secret i ->
  forall raw now ac c g', accepts_commit g raw now ac c g' -> accepts_commit (with_secrets g e i p) raw now ac c g'.
Proof. exact @forgets. Qed.
Print Assumptions C93_commits_erase_the_secrets_of_the_epoch.

Example C93_example : exists C secret g e i p raw ac c g',
  crypto_ok C /\ one_way C secret /\ secret (gr_epochSecret g) /\ secret (gr_initSecret g) /\ secret e /\ secret i /\
  gr_epochSecret g <> e /\ gr_initSecret g <> i /\ gr_pskSecret g <> p /\
  @accepts_commit C g raw clock ac c g' /\ @accepts_commit C (with_secrets g e i p) raw clock ac c g'.
Proof. exact forgets_example. Qed.
