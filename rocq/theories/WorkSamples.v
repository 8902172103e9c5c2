(** A short message that costs any number of steps. *)
From Verif Require Export WorkFacts AcceptSamples.
From Verif Require Import AcceptFacts.

Lemma work_example n now : n < 2 ^ 32 ->
  exists raw, lenN raw < 300 /\ @unmarshalAndProcessMessage toy ga raw now = (ga, Ok (Some (str "hello"))) /\ @messageWork toy ga raw = n.
Proof.
  intros Hn. destruct data_example as (OK & Kn & _). set (a := pmc_auth pc74). pose proof data_delivered as D. fold a in D.
  assert (Hz : lenN (enc_authenticatedContentTBM 2 hello74 (gr_context ga) a) < 200).
  { vm_compute. reflexivity. }
  destruct (any_work (C := toy) ga w35raw hello74 a n OK Kn D ltac:(lia) Hn) as (raw & D' & Hw & Hl).
  exists raw. split; [lia|]. split; [|exact Hw].
  exact (valid_data_accepted (C := toy) ga raw (mkAuthenticatedContent 2 hello74 a) (str "hello") now OK Kn D' eq_refl eq_refl).
Qed.
