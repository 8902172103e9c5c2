(** Carol is invited by a founder with other secrets. *)
From Verif Require Export NewcomerFacts SecrecySamples.

Definition other1 : group := with_secrets founder1 (str "another epoch secret") (gr_initSecret founder1) [].
Definition other2 : group := with_secrets founder1 quiet loud [].
Definition invite (g : group) : res (welcome * bytes) := snd (@createWelcome oblivious g [kpp_public carol] [] [] [str "x"] (str "abcd")).
Definition shown (r : res (welcome * bytes)) : welcome * bytes := getOr (noWelcome, []) r.
Lemma newcomer_example :
  crypto_ok oblivious /\ one_way oblivious secretly /\ secretly (gr_epochSecret founder1) /\ secretly (gr_initSecret founder1) /\ secretly quiet /\ secretly loud /\
  gr_epochSecret founder1 <> quiet /\ gr_initSecret founder1 <> loud /\
  invite founder1 = Ok (snd invitation2) /\ invite other2 = Ok (snd invitation2) /\
  is_ok (@groupFromWelcome oblivious (fst (snd invitation2)) carol clock) = true /\
  (exists w m', invite other1 = Ok (w, m') /\ w = fst (snd invitation2) /\ m' <> snd (snd invitation2)).
Proof.
  split; [exact oblivious_ok|]. split; [exact oblivious_one_way|]. split; [vm_compute; reflexivity|]. split; [vm_compute; reflexivity|]. split; [vm_compute; reflexivity|].
  split; [vm_compute; reflexivity|]. split; [vm_compute; discriminate|]. split; [vm_compute; discriminate|]. split; [vm_compute; reflexivity|]. split; [vm_compute; reflexivity|].
  split; [vm_compute; reflexivity|].
  exists (fst (shown (invite other1))), (snd (shown (invite other1))). split; [vm_compute; reflexivity|]. split; [vm_compute; reflexivity|]. vm_compute. discriminate.
Qed.
