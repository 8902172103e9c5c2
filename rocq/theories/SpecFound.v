(** Trees new members accept: C114. *)
From Verif Require Export SpecIntegrity SpecHistory SpecWhole.

Section WithCrypto.
Context {C : crypto}.

(** Every leaf is signed for the group, is current, and lists its extensions. *)
Definition usable (ctx : groupContext) (t : ratchetTree) (now : gotime) : Prop :=
  forall li l, leaf_at t li = Some l -> leaf_checked ctx now li l.
End WithCrypto.
