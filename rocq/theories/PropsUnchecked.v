(** The key packages that are invited: C109. *)
From Verif Require Import UncheckedSamples.

(** ** C109 *)
(** CreateWelcome does not look at the key packages.  A member who can invite
    makes a Welcome and a commit from any that can be encoded; the members who
    agree with the inviter reject the commit if the packages are not valid, and
    accept it if they are. *)
Theorem C109_packages_are_checked_before_inviting_refuted :
  forall (C : crypto) g kps rs ri rh rg,
  crypto_ok C -> compact C -> obtained g -> can_sign g -> can_invite g kps -> lenN rg = 4 ->
  exists g1 w raw, createWelcome g kps rs ri rh rg = (g1, Ok (w, raw)) /\
    forall m now, consistent m -> agree g m ->
      (let_in_together (gr_context g) kps -> exists m', unmarshalAndProcessMessage m raw now = (m', Ok None)) /\
      (~ let_in_together (gr_context g) kps -> exists r, unmarshalAndProcessMessage m raw now = (m, r) /\ rejected r).
Proof. exact @invitations_unchecked. Qed.
Print Assumptions C109_packages_are_checked_before_inviting_refuted.

(** What holds is that the members check them. *)
Theorem C109_members_check_the_packages_partial :
  forall (C : crypto) g kps rs ri rh rg g1 w raw m now m' r, crypto_ok C -> obtained g -> can_sign g -> lenN rg = 4 -> Forall wf_keyPackage kps ->
  createWelcome g kps rs ri rh rg = (g1, Ok (w, raw)) -> agree g m -> unmarshalAndProcessMessage m raw now = (m', Ok r) ->
  let_in_together (gr_context g) kps.
Proof. exact @invitations_checked. Qed.
Print Assumptions C109_members_check_the_packages_partial.

(** Bob invites Dave, whose key package is not signed.  Dave joins, and Alice,
    who agrees with Bob, does not let them in. *)
Example C109_example : @obtained toy gb /\ @can_sign toy gb /\ @can_invite toy gb [daveUnsigned] /\ ~ @let_in_together toy (gr_context gb) [daveUnsigned] /\
  agree gb ga /\ consistent ga /\
  @createWelcome toy gb [daveUnsigned] [] [] [str "z"] (str "efgh") = (fst unsignedWelcome, Ok (snd unsignedWelcome)) /\
  (exists j, @groupFromWelcome toy (fst (snd unsignedWelcome)) daveWithout clock = Ok j /\ gc_epoch (gr_context j) = gc_epoch (gr_context gb) + 1) /\
  (exists e, @unmarshalAndProcessMessage toy ga (snd (snd unsignedWelcome)) clock = (ga, Err e)).
Proof.
  split; [exact gb_obtained|]. split; [exact gb_signs|]. split; [exact daveUnsigned_invited|]. split; [exact daveUnsigned_not_let_in|].
  split; [vm_compute; repeat split|]. split; [exact (sane_consistent _ (obtained_sane (C := toy) _ ga_obtained))|].
  split; [vm_compute; reflexivity|]. split; [|eexists; vm_compute; reflexivity].
  eexists. split; vm_compute; reflexivity.
Qed.
