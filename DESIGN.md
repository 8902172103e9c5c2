# Formal model of emersion/go-mls in Rocq (Coq 8.16.1)

## What is modelled, and how

The model is a set of total, computable Gallina functions, one per Go function
(every definition cites the Go file and lines).  Files (in `rocq/theories`):

| file | Go code |
|------|---------|
| `Base.v` | Go runtime notions: bytes, result/panic/hang outcomes, list access with bounds |
| `Wire.v` | `mls.go`, and the part of `x/crypto/cryptobyte` it uses |
| `Types.v` | the struct types of `crypto.go tree.go key_package.go proposal.go framing.go group.go key_schedule.go` |
| `Codec.v` | every `unmarshal`/`marshal` method |
| `Memory.v` | the `unmarshal` methods again, with a count of the memory they allocate (C84) |
| `TreeMath.v` | `tree_math.go` (uint32 with wrap-around) |
| `Crypto.v` | `ciphersuite.go` over an abstract record of primitives |
| `Leaf.v` | leaf nodes, credentials and lifetimes (`tree.go`, `key_package.go`, and the part of package `time` they use) |
| `Tree.v` | `tree.go` (pure functions on trees, and the in-place mutators on an explicit heap of nodes) |
| `Schedule.v` | `key_schedule.go`, `secret_tree.go` |
| `Work.v` | the loop over the generations in `group.go`, with a count of its steps (C85) |
| `HashWork.v` | `verifyIntegrity` again, with a count of its hashes and leaf checks (C89) |
| `Proposal.v`, `Framing.v`, `Group.v` | `proposal.go`, `framing.go`, `key_package.go`, `group.go` |
| `Sender.v` | not Go code: a peer that sends commits with update paths as RFC 9420 prescribes; go-mls only receives them |
| `Toy.v` | not Go code: an instance of the crypto record that satisfies all the laws, for examples and counterexamples |
| `*Facts*.v`, `ModelFacts.v` | proofs |
| `Spec*.v`, `WellFormed.v` | small independent specifications used in theorem statements |
| `Scenario.v`, `Samples.v`, `*Samples.v`, `Witness.v` | concrete runs for the examples and the `_refuted` theorems |
| `Props*.v` | the property theorems, each closed by `exact`, with `Print Assumptions` |

Modelling conventions:

* A Go function that may fail returns `res A := Ok a | Err msg | Panic why | Hang`.
  `Panic` is an explicit Go panic, an out-of-range index or a nil dereference.
  `Hang` is a loop that never terminates; loops run on fuel that is proved
  sufficient whenever the Go loop terminates.
* A decoder is `bytes -> res A * bytes`; the second component is the state of the
  `cryptobyte.String` afterwards, also after a failure, because
  `KeyPackage.unmarshal` and `groupInfo.unmarshal` go on after a failed read.
* `uint8/16/32/64` are `N` with explicit `mod` where the Go code can wrap.
* Tagged structs (`proposal`, `node`, `mlsMessage`, ...) are sum types, because
  every constructor site in the code sets the tag and the matching pointer.
  `Credential` and `leafNode` stay records with their tag.
* `nil` versus empty is kept (as `option`) where the code tests `== nil`.
* Error texts are kept only as tags; their formatting is not modelled.
* Crypto primitives (hash, HMAC, HKDF, AEAD, HPKE, signatures) are fields of a
  record `crypto`; theorems quantify over every such record. Correctness laws
  (open after seal, verify after sign, output lengths) are a separate predicate
  that appears as a hypothesis of the theorems that need it, and a concrete toy
  instance is shown to satisfy it. Security assumptions are never assumed: binding
  theorems conclude "equal, or here is a collision".
* Randomness and the clock are explicit arguments.
* `ratchetTree` is a slice of pointers to nodes and `copy` is shallow.  The
  in-place mutators therefore run on an explicit heap of nodes (`Tree.v`), and
  groups hold pointers; this is what exposes the aliasing defects (C44, C45).

## Not modelled

Arithmetic inside the crypto primitives; time and memory
consumption apart from what `Memory.v`, `Work.v` and `HashWork.v` count; goroutine races (a `Group` has no locking and is not meant to be
shared); `String()` texts; test code.

## Per-property plan

(see MANIFEST.json for the theorem names)

* C01-C08: model of every decoder/encoder; three lemmas per structure:
  round trip, canonicity (decoded implies the input is the encoding), safety
  (no Panic, no Hang, progress). Injectivity of to-be-signed bytes follows from
  round trip. C04 is false of the code (a truncated signature is accepted):
  `_refuted` theorem with witness plus the restriction to non-empty signatures.
* C09-C11: node indices are related to coordinates (level, position); every bit
  trick is proved equal to the coordinate operation, for all sizes.
* C12-C18: tree operations proved against specifications on the list of leaves
  and on coordinates; invariants by induction over operations.
* C19, C28, C30-C32: collision-extraction theorems, by induction, no hypothesis
  on the hash/KDF.
* C20-C26: decision procedures proved equivalent to declarative rules. C22 is
  false when capability lists have duplicates (refuted + restricted theorem).
* C27: false because leaf indices wrap modulo 2^31 when turned into node indices
  (refuted + theorem for indices below 2^31).
* C33, C47-C49: end-to-end theorems over the crypto correctness laws.
* C35, C36, C41, C42, C44-C46, C52-C56, C62: expected to be false of the code;
  each gets a `_refuted` theorem with a concrete witness, and the strongest
  positive statement that does hold (`_partial`).  Where the finding is about
  every case it is also stated so: C04, C36, C56 and C62 in `EveryFacts.v`, C41
  and C42 in `PanicFacts.v`, C46 in `TagFacts.v`.
* C37-C40, C43, C57-C59, C63, C64: decision/soundness theorems over the group
  model, for all byte strings and histories.
* C50, C51: TreeKEM: an independent specification of the RFC 9420 sender is
  written down and the receiver code is proved to compute the same secrets.
* C61: finite table, proved by computation over the table.
* C65: `SpecWire.v` writes the wire format of RFC 9420 down a second time, as
  plain functions from values to bytes that share nothing with `Codec.v`; every
  encoder and decoder is proved to follow it.  `SpecRfc.v` does the same for the
  labelled KDF, signature and encryption functions and the key schedule; the
  other specifications are stated with these.
* C66-C69: `SpecRfc.v` and `SpecEpoch.v` state new groups, epochs, messages and
  Welcomes as RFC 9420 does; the model functions are proved to compute exactly
  that.
* C70, C71: the tree of a member after a commit, from the tree operations of
  C13-C15 and C20 in the prescribed order; the tree of a joiner (C71 is false of
  the code for trees ending with a blank node).
* C72: the private keys of a member, as an invariant of the operations; with
  it, C50 is stated for whole members as well: who agrees before a commit with
  a path agrees afterwards.
* C73: the whole definition of parent-hash validity of RFC 9420; commits keep it
  (a lemma for each tree operation), joining checks only a part of it (false of
  the code for joiners).
* C74: completeness of processing messages: `SpecAccept.v` says with the
  encodings and secrets of `SpecWire.v` and `SpecRfc.v` which messages are made
  as prescribed, and these are proved to be accepted.
* C75: the same for Welcomes (`SpecInvite.v`).
* C76: what members make can be made (`SpecCreate.v`): no error and no panic
  below the limits on sizes.
* C77: agreement of all who accept the same messages, honest or not, with no law
  of cryptography: `SpecSplit.v` says what a collision of derived keys is, and
  the exceptional case of the theorem exhibits one.
* C78, C79: the converse direction, from the epoch secret back to the view of the
  group (`SpecView.v`): with C32 and C19 for one epoch, with C31 for the commit
  before; and agreement of all who join with one Welcome.
* C80: C50 and C72 over whole histories (`SpecFollow.v`), by induction.
* C81, C82: what a member remembers of a proposal, as an invariant of all
  operations, and what a reference stands for (`SpecReference.v`); with this C77
  holds for members who do not receive the same proposals.
* C83: who changes leaves (`SpecOwnLeaf.v`), from C70 and C81.
* C86: the public half of the tree invariant (`SpecNodeKeys.v`): a transitive
  relation between trees that each operation keeps, by induction over messages.
* C87: normal form of all that a member holds (`SpecTypes.v`), as an invariant of
  the heap; it discharges the hypotheses of C78.
* C88: trees without a blank right half (`SpecWhole.v`), from C87 and the tree
  operations; the refutation is a Welcome with such a tree.
* C90: capabilities (`SpecSupport.v`), from the leaf checks of C21 and C70.
* C91, C92, C93: what outsiders learn, over ideal primitives (`SpecSecrecy.v`): a
  set of secret values closed under derivation; what is sealed with a secret key
  shows its length only, and what is derived from secrets does not show which.
* C94, C95, C96: who has made what is accepted (`SpecOrigin.v`), from the
  unambiguous signature inputs of C07 and the normal forms of C87.  There is no
  assumption about signatures: the theorems say what follows if the bytes that
  were verified were signed by a call of the library.
* C97, C98: equalities between two runs of the same function, at two times or by
  two members; no specification beyond that of agreement is needed.
* C99: what reading an update path means (`SpecReads.v`), without functions of the
  model; equivalent to success of `decryptPathSecrets` on any path.
* C100: two runs of `CreateWelcome` with different secrets; the one-way condition of
  C93 for the init secret.
* C101: what is found under a reference in a list of proposals (`SpecPending.v`);
  two runs with lists that agree.
* C102: permuted lists of proposals (`SpecOrder.v`), from a description of the
  nodes after all updates or removals that speaks of the set of leaves only.
* C103: two histories from one agreement (`SpecFork.v`), with the transcripts
  of C31, the counting of commits of C43 and the calls of C94.
* C104: `Names.v` models `CipherSuite.String` and `NewBasicCredential`; `SpecNames.v` spells the names from the table of algorithms. Formatting of decimal numbers is that of the standard library of Coq.
* C105: `MessageWork.v` has the functions that process messages once more, with a count of the cryptographic operations; `MessageWorkFacts.v` proves that apart from the count they are the same functions, so the count is of the model that the other properties are about. The bound assumes of the AEAD only that plaintexts are no longer than ciphertexts (`opens_no_longer`).
* C106: `JoinWork.v` does for creating, joining, inviting and sending what `MessageWork.v` does for processing messages: the functions once more, with a count, and proofs that apart from the count they are the same. That the tree in a Welcome is no larger than twice its bytes is read off the parsers (`sized`).
* C107: follows from C37 and C43; the number of the epoch overflows after 2^64 commits, hence the limit.
* C108: refuted for every accepted proposal, not only for one; `after` with `repeat` is the replay.
* C109: refuted for all packages that can be invited, not only for one; `let_in_together` is the condition of the members.
* C110: refuted for every reinit commit without path, whatever the proposal says (its version is not compared either).
* C111: refuted for every otherwise acceptable commit that removes a blank leaf; `acceptable_commit` (`SpecExact.v`) is `valid_commit` without the condition on removals.
* C112: equivalences for application data, proposals and commits with and without path; that the confirmation tag is not among the conditions is finding C46. For commits with a path the condition is `acceptable_path` (`SpecExactPath.v`), which uses `path_checked` (C70), `merged` (C20) and `reads_path` (C99).
* C113: `admits` (SpecExactJoin.v) lists the conditions under which a Welcome is accepted; it is proved to be necessary and sufficient.
* C114: `usable` (SpecFound.v) says that all leaves of a tree pass the checks of `leaf_checked`; a Welcome is accepted only if the inviter's tree is.
* C115: `tidy` (SpecStale.v): every private key held is that of a node that is in the tree and not blank.
* C116: `with_private`, `same_but_private_keys`, `strangers` (SpecMixed.v): signatures made with the one key never verify under the other.
* C117: `is_grease`, `meant`, `leaf_greased`, `package_greased`, `node_greased` (SpecGrease.v): equal once the reserved values are filtered out of every list.
* C118: `in_turn` (SpecTogether.v): of both lists together the first is applied first anyway; trees are compared as values, as in C102.
* C119: `once` (no two extensions have the same type), `same_package`, `same_leaf`, `same_info` (the same but for the extensions and the signature) (SpecTwice.v).
* C120: `indices_below`, `parent_with_key` (SpecFresh.v).
* C121: `unsigned_leaf` (SpecSpoiled.v): the leaf is not signed for its group and place; `invited_tree`: the tree and context of the next epoch when a member adds people; `valid_members`: what those who join check of that tree (parent hashes, leaves, distinct keys, unmerged leaves, credential types).
* C122: `renamed` (SpecTaken.v): the same leaf node but for the content of the credential and the signature; `removes`, `by_its_member` as in C83.
* C123: `still_its_leaf` (SpecOusted.v): the leaf the member had, or one that it signed itself (`by_its_member` of C83).
* C124: stated with the functions of the model (`createApplicationMessage`, `unmarshalAndProcessMessage`) and `carries`, `authentic` of C38.
* C125: stated with `unmarshalAndProcessMessage`, `after` and `commits_accepted` (C43), the number of commits accepted in a history.
* C126: stated with the operations of the model, the pending list and `leaf_at`; the partial statement uses `commits` (C25) and `additionsOf` (C16).
* C127: `copied`, `only_invitations` (SpecCopied.v): the shared secrets without private keys, and histories of commits made by CreateWelcome.
* C84: the memory of decoding, counted in `Memory.v`.  `MemoryFacts.v` shows that
  without the count these are the decoders of `Codec.v`.  The bounds are
  compositional: each decoder pays for what it takes from the bytes it consumes.
* C85: the steps of the message ratchet, counted in `Work.v`.  The refutation for
  every number of steps comes from C74, since it cannot be computed.
* C89: the hashes of tree verification, counted in `HashWork.v` in the same way.

## Simplifications, and where they could hide a difference

* Byte slices are values.  In Go, arguments and results may alias group state
  (decoded slices are copies, mls.go:60); code that later writes into such a
  slice is outside of the model.  The only writes through shared pointers that the code
  itself makes are those to `parentNode.unmergedLeaves`; these are modelled, on
  the heap.  `append` to `unmergedLeaves` is modelled as a fresh list (two
  slices that share spare capacity could in Go overwrite each other's tail; no
  two live nodes share a slice in the modelled code, as `copy` shares the whole
  node).
* Each operation reads the clock once.  `verifyIntegrity` in Go reads it once
  per operation too; `GenerateKeyPairPackage` reads it twice and the model takes
  both readings.
* After a `Panic` the returned group is not meaningful (a panic in the middle of
  `processCommit` leaves the heap of the group as `apply` made it; the model
  returns the old group).
* `pskSecret` arguments are never nil in the exported operations, and private
  keys that are nil slices are not told apart from empty ones.
* Leaf and node indices are `N`; the `uint32` conversions that can wrap
  (`leafIndex.nodeIndex`, tree math, PSK counts) are explicit.
* `int` is unbounded; slice lengths are assumed below 2^63.
* HPKE, signature and AEAD constructors that fail on malformed keys return
  errors through the crypto record.  An ECDSA public key that is not on the
  curve makes `Verify` panic when the signature parses, as in the Go code
  (`elliptic.Unmarshal` returns nil coordinates).

## Tests of the model on the vectors of the project

These are tests of the fidelity of the model, not proofs.  `Sha2.v`, `Aead.v`,
`Curves.v` and `RealCrypto.v` define the real primitives (SHA-2, HMAC, HKDF,
AES-GCM, ChaCha20-Poly1305, X25519, Ed25519, NIST curves, HPKE) as an instance
`real` of the record `crypto`; no theorem is about it.  `VectorChecks.v` follows
the Go test functions on the model.  A selection of /repo/testdata runs when
`Vectors.v`, `VectorsGroup.v` and `VectorsClient.v` are built; all of testdata
was run on the extracted model (see vectors/README.md), including a client that
follows 200 epochs and agrees with every epoch authenticator.  The vectors only
hold inputs the code accepts: the error paths of the model rest on reading the
code.  For these, all model files were compared once more, line by line, with the
Go files after the model was complete (error paths, nil and empty slices, order
of panics, sharing of nodes); this found no difference.

## Trials against wrong programs

`seeded/LOG.jsonl` has one line per edit of the model tried in a scratch copy.
What the lines do and do not show:

* A proof that no longer goes through is replaced by an assumption, and the
  build goes on.  `theorems_failed` lists the property theorems that then rest
  on such an assumption, and the examples whose own proofs broke.  This shows
  that the proofs depend on the edited code.  It does not by itself show that
  the statement is false of the edited program: a proof script can also break
  for reasons of form.
* Most later trials rebuild only the files needed by the properties claimed to
  be broken, so other theorems may fail as well without being listed.
* Trials were run against the model as it was then.  Where one was repeated,
  the line gives the last run; `claims_still_proved_in_the_first_run` lists
  claimed properties whose theorems still went through in the first.
* Where the claim was changed after seeing the result,
  `claim_first_written` has the one written beforehand.
* Ids A1, A2, … are edits made by a program, in no particular place.  For
  these the line names the first files whose proofs failed, not theorems.
  466 of the 3482 generated edits were tried.

## Trusted base

* The Coq 8.16.1 kernel and its virtual machine (`vm_compute` is used for the
  concrete examples and witnesses).
* No axioms: `Print Assumptions` below every property theorem reports "Closed
  under the global context".  (`Coq.ssr.ssrunder` module-type parameters that a
  global listing shows come with the standard library and no theorem uses them.)
* The hand-written correspondence between the Go text and the model files; every
  definition cites its lines.
* The reading of Go, `x/crypto/cryptobyte`, `time` and the circl/crypto packages
  recorded in `Base.v`, `Wire.v`, `Leaf.v` and `Crypto.v`.
* The correctness laws `crypto_ok` of the primitives, which are hypotheses of
  the theorems about deliveries and agreement, not axioms; `Toy.v` shows that
  they are satisfiable.
* The specifications in `Spec*.v`, `WellFormed.v` and `Sender.v` say what the
  English properties mean.
