(** Proposals committed together or one after the other (C118). *)
From Verif Require Export SpecOrder SpecObtained.

(** Of both lists together, what is in [ps] is applied first anyway: updates come
    before removals, and these before additions. *)
Definition in_turn (ps qs : list (proposal * N)) : Prop :=
  (removalsOf ps = [] \/ updatesOf qs = []) /\
  (additionsOf ps = [] \/ updatesOf qs = [] /\ removalsOf qs = []).
