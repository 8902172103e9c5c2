(** Someone with a copy of the secrets of a member (C127). *)
From Verif Require Export SpecWelcome SpecObtained SpecGroup.

(** The shared secrets of [g], but no private keys: neither that of the leaf,
    nor those of the nodes above, nor that of the signatures *)
Definition copied (g thief : group) : Prop :=
  agree g thief /\ consistent thief /\ (forall key, ~ In (Some key) (gr_privTree thief)) /\ gr_signaturePriv thief = [].

(** [m] becomes [m'] by the commits of CreateWelcome, made by members in
    agreement. *)
Inductive only_invitations {C : crypto} : group -> group -> Prop :=
| no_invitation m : only_invitations m m
| invitation m m1 g kps rs ri rh rg g1 w raw now m2 : only_invitations m m1 ->
    obtained g -> can_sign g -> agree g m1 -> lenN rg = 4 ->
    Forall wf_keyPackage kps -> Forall (addable (gr_context g)) kps -> NoDup (map (fun k => ln_signatureKey (kp_leafNode k)) kps) ->
    createWelcome g kps rs ri rh rg = (g1, Ok (w, raw)) -> unmarshalAndProcessMessage m1 raw now = (m2, Ok None) ->
    only_invitations m m2.
