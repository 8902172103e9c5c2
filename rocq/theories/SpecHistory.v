(** Conversations held with the library's own operations. *)
From Verif Require Export SpecWelcome.

Section WithCrypto.
Context {C : crypto}.

(** Made by GenerateKeyPairPackage for a cipher suite and a basic credential;
    the two encryption keys differ. *)
Definition generated (cs : N) (kpp : keyPairPackage) : Prop :=
  (exists cred t0 t1 r1 r2 r3 r4 r5, cred_type cred = 1 /\ cred_certificates cred = [] /\
     generateKeyPairPackage cs cred t0 t1 r1 r2 r3 r4 r5 = Ok kpp) /\
  ln_encryptionKey (kp_leafNode (kpp_public kpp)) <> kp_initKey (kpp_public kpp).

(** The leaf nodes have basic credentials, and list no other type. *)
Definition basic_leaf (l : leafNode) : Prop :=
  cred_type (ln_credential l) = 1 /\ caps_credentials (ln_capabilities l) = [1].

(** A key package anyone may found a group with *)
Definition founder (kpp : keyPairPackage) : Prop :=
  let k := kpp_public kpp in let l := kp_leafNode k in
  wf_keyPackage k /\ holds_private_keys kpp /\ newcomer (kp_cipherSuite k) l /\
  In (cred_type (ln_credential l)) (caps_credentials (ln_capabilities l)).

(** Everyone gives the message to UnmarshalAndProcessMessage, each at a time of
    their own, and is left with a group whatever the result. *)
Definition all_receive (raw : bytes) : list group -> list group -> Prop :=
  Forall2 (fun m m' => exists now, m' = fst (unmarshalAndProcessMessage m raw now)).

(** [conversation gs]: [gs] are the states of all the members of a group after some
    operations. *)
Inductive conversation : list group -> Prop :=
| founded groupID kpp rnd g :
    founder kpp -> createGroup groupID kpp rnd = Ok g -> conversation [g]
(** A member calls CreateWelcome.  Everyone, and the member too, gets the
    commit, and everyone who is invited gets the Welcome. *)
| welcomed before g after kpps rs ri rh rg g1 w raw members joiners :
    conversation (before ++ g :: after) -> lenN rg = 4 ->
    may_join g (map kpp_public kpps) -> Forall holds_private_keys kpps ->
    createWelcome g (map kpp_public kpps) rs ri rh rg = (g1, Ok (w, raw)) ->
    NoDup (welcomeNewMembers w) ->
    all_receive raw (before ++ g1 :: after) members ->
    Forall2 (fun kpp j => exists now, later_than_1970 now /\ all_current g (map kpp_public kpps) now /\ groupFromWelcome w kpp now = Ok j) kpps joiners ->
    conversation (members ++ joiners)
(** A member sends a message. *)
| told members g data rnd rg raw members' :
    conversation members -> In g members -> lenN rg = 4 ->
    createApplicationMessage g data rnd rg = Ok raw -> all_receive raw members members' -> conversation members'
(** A member calls CreateWelcome with anything, and nobody hears of the result. *)
| unsent before g after kps rs ri rh rg g1 r :
    conversation (before ++ g :: after) -> createWelcome g kps rs ri rh rg = (g1, r) -> conversation (before ++ g1 :: after)
(** A member gets anything that it rejects. *)
| rejected_noise before g after raw now g1 e :
    conversation (before ++ g :: after) -> unmarshalAndProcessMessage g raw now = (g1, Err e) -> conversation (before ++ g1 :: after).
End WithCrypto.
