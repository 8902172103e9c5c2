(** What a member who has just entered an epoch knows of it. *)
From Verif Require Export SpecSchedule SpecEpoch SpecJoin SpecAgreement.

Section WithCrypto.
Context {C : crypto}.

(** A member has just joined with a Welcome, or just accepted a commit. *)
Definition just_entered (g : group) : Prop :=
  (exists w kpp now, groupFromWelcome w kpp now = Ok g) \/
  (exists g0 raw now ac c, obtained g0 /\ accepts_commit g0 raw now ac c g).

(** [joiner] is a joiner secret of the member's epoch (section 8; the library has
    no pre-shared keys). *)
Definition has_joiner (g : group) (joiner : bytes) : Prop :=
  gr_epochSecret g = epoch_secret (gr_context g) joiner (psk_secret (gc_cipherSuite (gr_context g)) []).
(** The commit that led from [g] to [g'] had the commit secret [commitSecret]. *)
Definition has_commit_secret (g g' : group) (commitSecret : bytes) : Prop :=
  has_joiner g' (joiner_secret (gr_context g') (gr_initSecret g) commitSecret).

(** The calls that the epoch secret and the tree hash are the results of *)
Definition epochQueries (g : group) (joiner : bytes) (k : nat) : list query :=
  let cs := gc_cipherSuite (gr_context g) in
  scheduleQueries (str "epoch") (gr_context g) (psk_secret cs []) joiner ++ rootQueries cs k (gr_value g).
(** Those that the secrets and the transcript hash of the epoch before go into *)
Definition commitQueries (g g' : group) (commitSecret : bytes) (ac : authenticatedContent) : list query :=
  let cs := gc_cipherSuite (gr_context g) in
  scheduleQueries (str "epoch") (gr_context g') (psk_secret cs []) (joiner_secret (gr_context g') (gr_initSecret g) commitSecret) ++
  scheduleQueries (str "joiner") (gr_context g') commitSecret (gr_initSecret g) ++
  [confirmedQuery cs (gr_interimTranscriptHash g) (entry ac);
   expandQuery cs (gr_epochSecret g) (str "init") [] (secretSize cs)].

(** The group secrets of the Welcome [w] for the key package [kpp] have the joiner
    secret [joiner], and the encrypted group information opens with it. *)
Definition lets_open (w : welcome) (kpp : keyPairPackage) (joiner : bytes) : Prop :=
  let cs := w_cipherSuite w in
  let secret := welcome_secret cs joiner (psk_secret cs []) in
  (exists sec s, In sec (w_secrets w) /\ egs_newMember sec = KeyPackageRef (kpp_public kpp) /\
     DecryptWithLabel cs (kpp_initKey kpp) (str "Welcome") (w_encryptedGroupInfo w)
       (hc_kemOutput (egs_secrets sec)) (hc_ciphertext (egs_secrets sec)) (enc_groupSecrets s) /\
     gs_joinerSecret s = joiner) /\
  exists info, opened cs (welcome_key cs secret) (welcome_nonce cs secret) [] (w_encryptedGroupInfo w) = Some info.
End WithCrypto.
