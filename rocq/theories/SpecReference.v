(** Proposals committed by reference: what a member remembers of a proposal, and
    what a reference stands for. *)
From Verif Require Export SpecSchedule SpecSplit SpecObtained.

Section WithCrypto.
Context {C : crypto}.

(** The hash calls that make the references of section 5.2 *)
Definition proposalQueries (cs : N) (ac : authenticatedContent) : list query :=
  [QHash (hashOf cs) (enc_refHashInput (str "MLS 1.0 Proposal Reference") (enc_authenticatedContent ac))].
Definition keyPackageQueries (k : keyPackage) : list query :=
  [QHash (hashOf (kp_cipherSuite k)) (enc_refHashInput (str "MLS 1.0 KeyPackage Reference") (enc_keyPackage k))].

(** [pp] is what the member [g] keeps of the message content [ac]: a proposal
    that a member signed in this epoch, who signed it, and its reference. *)
Definition remembers (g : group) (pp : pendingProposal) (ac : authenticatedContent) : Prop :=
  authentic g ac /\ wf_authenticatedContent ac /\
  fc_body (ac_content ac) = BProposal (pp_proposal pp) /\ fc_sender (ac_content ac) = SMember (pp_sender pp) /\
  pp_ref pp = ProposalRef (gc_cipherSuite (gr_context g)) ac.

(** The proposal [p] of [s] that the member [li] commits with [c]: [li]'s own,
    written in the commit, or one that [s] signed in this epoch, whose reference
    is in the commit. *)
Definition rightly_committed (g : group) (li : N) (c : commit) (p : proposal) (s : N) : Prop :=
  (s = li /\ In (PorProposal p) (c_proposals c)) \/
  exists ac, authentic g ac /\ fc_body (ac_content ac) = BProposal p /\ fc_sender (ac_content ac) = SMember s /\
    In (PorReference (ProposalRef (gc_cipherSuite (gr_context g)) ac)) (c_proposals c).

(** [g] and [m] remember two different messages under one reference of the commit
    [c]: the hash function collides. *)
Definition references_collide (g m : group) (c : commit) : Prop :=
  let cs := gc_cipherSuite (gr_context g) in
  exists pp1 ac1 pp2 ac2,
    In pp1 (gr_pending g) /\ remembers g pp1 ac1 /\ In pp2 (gr_pending m) /\ remembers m pp2 ac2 /\
    In (PorReference (ProposalRef cs ac1)) (c_proposals c) /\ collide (proposalQueries cs ac1) (proposalQueries cs ac2).

(** Something that a member does between two commits: it accepts a message that
    is not a commit, or rejects a message or invites someone without any effect
    (C44 and C45 say when there is one). *)
Inductive aside : group -> group -> Prop :=
| aside_accepted g raw now d g' :
    unmarshalAndProcessMessage g raw now = (g', Ok d) -> gc_epoch (gr_context g') = gc_epoch (gr_context g) -> aside g g'
| aside_rejected g raw now e g' :
    unmarshalAndProcessMessage g raw now = (g', Err e) -> same_state g g' -> aside g g'
| aside_invited g kps rs ri rh rg g' r :
    createWelcome g kps rs ri rh rg = (g', r) -> same_state g g' -> aside g g'.

(** [g] and [m] become [g'] and [m']; they accept the same commits, and whatever
    else each of them comes across. *)
Inductive same_commits : group -> group -> group -> group -> Prop :=
| commits_none g m : same_commits g m g m
| commits_left g m g1 m1 g' : same_commits g m g1 m1 -> aside g1 g' -> same_commits g m g' m1
| commits_right g m g1 m1 m' : same_commits g m g1 m1 -> aside m1 m' -> same_commits g m g1 m'
| commits_both g m g1 m1 raw now now' ac ac' c c' g' m' : same_commits g m g1 m1 ->
    accepts_commit g1 raw now ac c g' -> accepts_commit m1 raw now' ac' c' m' -> same_commits g m g' m'.
End WithCrypto.
