(** The key packages that members let in. *)
From Verif Require Export SpecCreate SpecGroup.

Section WithCrypto.
Context {C : crypto}.

(** They are valid in the group, and have different signature keys. *)
Definition let_in_together (ctx : groupContext) (kps : list keyPackage) : Prop :=
  Forall (addable ctx) kps /\ NoDup (map (fun k => ln_signatureKey (kp_leafNode k)) kps).
End WithCrypto.
