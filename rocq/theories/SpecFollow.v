(** Members who follow the same messages. *)
From Verif Require Export SpecHold.

Section WithCrypto.
Context {C : crypto}.

(** [g] gets messages at some times, accepts them all, returns [ds] and becomes
    [g']. *)
Inductive receives : group -> list (bytes * gotime) -> list (option bytes) -> group -> Prop :=
| receives_none g : receives g [] [] g
| receives_next g raw now d g1 l ds g' :
    unmarshalAndProcessMessage g raw now = (g1, Ok d) -> receives g1 l ds g' -> receives g ((raw, now) :: l) (d :: ds) g'.

(** A commit [c] of the proposals [ps] by the leaf [li], which takes the member [g]
    to [g1], is one that the leaves [members] can follow.  If it has a path, the
    path is one that RFC 9420 prescribes, [members] are not the committer and have
    the same encryption keys after the proposals, and every node above one of them
    and above a leaf of [new], which the path secrets are not encrypted to, is
    also above the committer. *)
Definition can_be_followed (g g1 : group) (members : list N) (li : N) (c : commit) (ps : list (proposal * N)) : Prop :=
  match c_path c with
  | None => True
  | Some up => exists k t new, prescribed_path g g1 ps li up k t new /\
      forall me, In me members ->
        me <> designated li /\
        option_map ln_encryptionKey (leaf_at t me) = option_map ln_encryptionKey (leaf_at (gr_value g) me) /\
        forall u a, In u new -> ancestor_or_self a (leafPath k me) -> ancestor_or_self a (leafPath k u) -> ancestor_or_self a (leafPath k (designated li))
  end.

(** Every commit that [g] accepts among the messages can be followed. *)
Inductive leads (members : list N) : group -> list (bytes * gotime) -> Prop :=
| leads_none g : leads members g []
| leads_next g raw now d g1 l :
    unmarshalAndProcessMessage g raw now = (g1, Ok d) ->
    (forall ac c li ps, accepts_commit g raw now ac c g1 -> fc_sender (ac_content ac) = SMember li -> commits g li c ps ->
       can_be_followed g g1 members li c ps) ->
    leads members g1 l -> leads members g ((raw, now) :: l).
End WithCrypto.
