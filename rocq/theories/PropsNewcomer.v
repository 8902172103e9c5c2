(** What new members learn of earlier epochs: C100. *)
From Verif Require Import NewcomerSamples.

(** ** C100 *)
(** The Welcome is the same whatever the epoch secret and the PSK secret of the
    epoch in which it is made.  No assumption on the cryptography. *)
Theorem C100_welcomes_do_not_depend_on_the_epoch_secret :
  forall (C : crypto) g e p kps rs ri rh rg rg' g1 g2 w w' m m',
  createWelcome g kps rs ri rh rg = (g1, Ok (w, m)) ->
  createWelcome (with_secrets g e (gr_initSecret g) p) kps rs ri rh rg' = (g2, Ok (w', m')) -> w' = w.
Proof. exact @welcome_any_epoch. Qed.
Print Assumptions C100_welcomes_do_not_depend_on_the_epoch_secret.

(** It depends on the init secret through key derivation only. *)
Theorem C100_welcomes_do_not_show_the_init_secret :
  forall (C : crypto) (secret : bytes -> Prop), one_way C secret ->
  forall g e i p, secret (gr_epochSecret g) -> secret (gr_initSecret g) -> secret e -> secret i ->
  forall kps rs ri rh rg, snd (createWelcome (with_secrets g e i p) kps rs ri rh rg) = snd (createWelcome g kps rs ri rh rg).
Proof. exact @welcome_forgets. Qed.
Print Assumptions C100_welcomes_do_not_show_the_init_secret.

Example C100_example :
  crypto_ok oblivious /\ one_way oblivious secretly /\ secretly (gr_epochSecret founder1) /\ secretly (gr_initSecret founder1) /\ secretly quiet /\ secretly loud /\
  gr_epochSecret founder1 <> quiet /\ gr_initSecret founder1 <> loud /\
  invite founder1 = Ok (snd invitation2) /\ invite other2 = Ok (snd invitation2) /\
  is_ok (@groupFromWelcome oblivious (fst (snd invitation2)) carol clock) = true /\
  (exists w m', invite other1 = Ok (w, m') /\ w = fst (snd invitation2) /\ m' <> snd (snd invitation2)).
Proof. exact newcomer_example. Qed.
