(** Specification of members with a common past (C103). *)
From Verif Require Export SpecOrigin SpecSchedule SpecAgreement.

Section WithCrypto.
Context {C : crypto}.

(** The commits [es] and [es'], accepted by members who began with the state of
    [g], are the same, with the same confirmation tags but for the last; or two
    of the hashes that the two members computed of them collide. *)
Definition same_past (g : group) (es es' : list transcriptEntry) : Prop :=
  (map untagged es = map untagged es' /\ map te_tag (removelast es) = map te_tag (removelast es')) \/
  collide (transcriptQueries (gc_cipherSuite (gr_context g)) (gr_interimTranscriptHash g) es)
          (transcriptQueries (gc_cipherSuite (gr_context g)) (gr_interimTranscriptHash g) es').

(** Whichever messages have led to [gs] from an agreement with [m], the commits
    among them are the commits [es']. *)
Definition shares_past (m : group) (es' : list transcriptEntry) (gs : group) : Prop :=
  forall g l es, lawful g -> agree g m -> commit_log g l es -> lenN es < 2 ^ 64 -> gs = after g l -> same_past g es es'.
End WithCrypto.
