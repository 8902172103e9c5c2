(** Calls of hash and key derivation functions, and what it means that two of
    them collide.  A binding theorem says: equal outputs come from equal
    inputs, or two of the calls made (which the theorem names) collide. *)
From Verif Require Export SpecTreeMath SpecGroup SpecRfc.

Inductive query :=
| QHash (h : hashAlg) (message : bytes)
| QExtract (h : hashAlg) (secret salt : bytes)
| QExpand (h : hashAlg) (prk info : bytes) (length : N).

(** Calls of the same function with the same output length *)
Definition comparable (q1 q2 : query) : Prop :=
  match q1, q2 with
  | QHash h1 _, QHash h2 _ => h1 = h2
  | QExtract h1 _ _, QExtract h2 _ _ => h1 = h2
  | QExpand h1 _ _ n1, QExpand h2 _ _ n2 => h1 = h2 /\ n1 = n2
  | _, _ => False
  end.

(** ExpandWithLabel (RFC 9420, section 8) *)
Definition expandQuery (cs : N) (secret label context : bytes) (n : N) : query :=
  QExpand (kdfOf cs) secret (enc_kdfLabel n label context) n.

Section WithCrypto.
Context {C : crypto}.

Definition answer (q : query) : bytes :=
  match q with
  | QHash h m => cr_hash C h m
  | QExtract h s t => cr_extract C h s t
  | QExpand h p i n => cr_expand C h p i n
  end.

Definition collision (q1 q2 : query) : Prop := comparable q1 q2 /\ q1 <> q2 /\ answer q1 = answer q2.

(** A call of the first list collides with one of the second. *)
Definition collide (l1 l2 : list query) : Prop :=
  exists q1 q2, In q1 l1 /\ In q2 l2 /\ collision q1 q2.

(** ** The epoch and joiner secrets (section 8) *)
Definition scheduleQueries (label : bytes) (ctx : groupContext) (secret salt : bytes) : list query :=
  let cs := gc_cipherSuite ctx in
  [QExtract (kdfOf cs) secret salt;
   expandQuery cs (answer (QExtract (kdfOf cs) secret salt)) label (enc_groupContext ctx) (secretSize cs)].

(** ** The PSK secret (section 8.4): the calls for the [i]-th of [count] PSKs *)
Definition pskQueries (cs count i : N) (before : bytes) (id : preSharedKeyID) (psk : bytes) : list query :=
  let q1 := QExtract (kdfOf cs) psk (zeroes (secretSize cs)) in
  let q2 := expandQuery cs (answer q1) (str "derived psk") (enc_pskLabel id i count) (secretSize cs) in
  [q1; q2; QExtract (kdfOf cs) before (answer q2)].
Fixpoint pskListQueries (cs count i : N) (before : bytes) (l : list (preSharedKeyID * bytes)) : list query :=
  match l with
  | [] => []
  | (id, psk) :: r =>
    let qs := pskQueries cs count i before id psk in
    qs ++ pskListQueries cs count (i + 1) (answer (last qs (QHash SHA256 []))) r
  end.
Definition pskSecretQueries (cs : N) (l : list (preSharedKeyID * bytes)) : list query :=
  pskListQueries cs (lenN l) 0 (zeroes (secretSize cs)) l.

(** ** The secret tree (section 9): labels and contexts expanded one after the
    other, starting from the encryption secret *)
Definition steps := list (bytes * bytes).

Fixpoint expandAll (cs : N) (s : bytes) (l : steps) : bytes :=
  match l with
  | [] => s
  | (label, context) :: r => expandAll cs (answer (expandQuery cs s label context (secretSize cs))) r
  end.
Fixpoint expandAllQueries (cs : N) (s : bytes) (l : steps) : list query :=
  match l with
  | [] => []
  | (label, context) :: r =>
    let q := expandQuery cs s label context (secretSize cs) in q :: expandAllQueries cs (answer q) r
  end.

(** From the root of the tree to the node at the end of a path *)
Definition pathSteps (p : path) : steps := map (fun b : bool => (str "tree", if b then str "right" else str "left")) p.
(** Then to the ratchet of a kind of messages, and to a generation *)
Definition kindLabel (application : bool) : bytes := if application then str "application" else str "handshake".
Definition generationSteps (n : N) : steps := map (fun g => (str "secret", num 4 g)) (upto n).
Definition messageSteps (p : path) (application : bool) (generation : N) : steps :=
  pathSteps p ++ [(kindLabel application, [])] ++ generationSteps generation.

(** ** Transcript hashes (section 8.2): one entry per commit *)
Record transcriptEntry := mkEntry { te_wireFormat : N; te_content : framedContent; te_signature : bytes; te_tag : bytes }.
Definition confirmedQuery (cs : N) (interim : bytes) (e : transcriptEntry) : query :=
  QHash (hashOf cs) (interim ++ enc_confirmedTranscriptHashInput (te_wireFormat e) (te_content e) (te_signature e)).
Definition interimQuery (cs : N) (confirmed : bytes) (e : transcriptEntry) : query :=
  QHash (hashOf cs) (confirmed ++ vec (te_tag e)).
Fixpoint transcriptQueries (cs : N) (interim : bytes) (l : list transcriptEntry) : list query :=
  match l with
  | [] => []
  | e :: r =>
    let q1 := confirmedQuery cs interim e in
    let q2 := interimQuery cs (answer q1) e in
    q1 :: q2 :: transcriptQueries cs (answer q2) r
  end.

(** The commits that [g] accepts while processing messages one after the other *)
Definition entry (ac : authenticatedContent) : transcriptEntry :=
  mkEntry (ac_wireFormat ac) (ac_content ac) (ad_signature (ac_auth ac)) (ad_confirmationTag (ac_auth ac)).
Inductive commit_log : group -> list (bytes * gotime) -> list transcriptEntry -> Prop :=
| cl_nil g : commit_log g [] []
| cl_commit g raw now r l ac c g' : accepts_commit g raw now ac c g' -> commit_log g' r l ->
    commit_log g ((raw, now) :: r) (entry ac :: l)
| cl_other g raw now r l : (forall ac c g', ~ accepts_commit g raw now ac c g') ->
    commit_log (fst (unmarshalAndProcessMessage g raw now)) r l ->
    commit_log g ((raw, now) :: r) l.
(** Everything in an entry but the confirmation tag *)
Definition untagged (e : transcriptEntry) : N * framedContent * bytes := (te_wireFormat e, te_content e, te_signature e).
End WithCrypto.
