# Running the model on the test vectors of the project

`rocq/theories/Sha2.v`, `Aead.v`, `Curves.v` and `RealCrypto.v` instantiate the
record `crypto` with the real algorithms (all suites except X448 and Ed448).
`VectorChecks.v` follows the Go test functions, on the model.  `Vectors.v`,
`VectorsGroup.v` and `VectorsClient.v` run a selection of `/repo/testdata` when
they are built (`select.py` wrote them).

All the vectors were run once, on the model extracted to OCaml:

    coqc -Q rocq/theories Verif extract.v      # the text of extract.txt
    cp driver.txt driver.ml; rm m.mli; ocamlfind ocamlopt -package zarith,unix -linkpkg m.ml driver.ml -o driver
    ulimit -s unlimited; ./driver passive-client-random

Result: every check of every vector passes, except those that need X448 or Ed448
(suites 4 and 6: signatures and HPKE in crypto-basics, welcome,
message-protection and tree-validation).  As in the Go tests, treekem and the
passive clients skip unsupported suites, and passive-client-handling-commit
skips 6 of 13 cases per suite, whose proposals the test does not handle.  In
addition to what the Go test checks, the epoch authenticator is compared after
every commit: it agrees in all of them, 200 of them in passive-client-random.
