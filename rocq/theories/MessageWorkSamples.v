(** Samples for C105. *)
From Verif Require Export MessageBoundFacts ObtainedFacts GroupSamples ForkSamples.

Section WithCrypto.
Context {C : crypto}.
Lemma obtained_work g raw now : opens_no_longer C -> obtained g ->
  snd (countMessage g raw now) <= 5 * lenN (gr_tree g) + 9 * lenN raw + 124 + messageWork g raw.
Proof. intros NL O. apply message_work; [exact NL|now apply obtained_sane]. Qed.
Lemma obtained_growth g raw now g' r : opens_no_longer C -> obtained g -> unmarshalAndProcessMessage g raw now = (g', r) ->
  lenN (gr_tree g') + 1 <= 2 * (lenN (gr_tree g) + 1) + 4 * lenN raw.
Proof. intros NL O. apply message_growth; [exact NL|now apply obtained_sane]. Qed.
End WithCrypto.

Lemma toy_opens_no_longer : opens_no_longer toy.
Proof.
  intros a k n aad ct pt. cbn [toy cr_aeadOpen]. generalize (toyDigest 16 (toyJoin [k; n; aad])). intros tag. unfold toyOpen.
  destruct (bytes_eqb _ _); [|discriminate]. intros H. assert (E : pt = skipn 16 ct) by congruence. rewrite E. unfold lenN. rewrite skipn_length. lia.
Qed.
