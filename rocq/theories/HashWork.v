(** The hashes and leaf checks that verifying a tree takes (tree.go:759-969).

    The functions of Tree.v once more, with a count: one for every hash that is
    computed and one for every leaf node that is verified (with one signature).
    HashWorkFacts.v shows that apart from the count these are the functions of
    Tree.v. *)
From Verif Require Export Tree.

Definition counted (A : Type) : Type := res A * N.
(** A step that counts as [n] *)
Definition costs {A} (n : N) (m : res A) : counted A := (m, n).
Definition c_bind {A B} (m : counted A) (k : A -> counted B) : counted B :=
  match fst m with
  | Ok a => let r := k a in (fst r, snd m + snd r)
  | Err e => (Err e, snd m)
  | Panic p => (Panic p, snd m)
  | Hang => (Hang, snd m)
  end.
Notation "'let#' x := m 'in' k" := (c_bind m (fun x => k)) (at level 200, x pattern, m at level 100, k at level 200).

Section WithCrypto.
Context {C : crypto}.

(** tree.go:843-905 computeTreeHash *)
Fixpoint countTreeHashLoop (fuel : nat) (cs : N) (t : ratchetTree) (exclude : list N) (x : N) : counted bytes :=
  let# n := costs 0 (getN t x) in
  match leafIndexOf x with
  | Some li =>
    let# l := costs 0 (match n with
              | Some (NLeaf l) => Ok (if memN li exclude then None else Some l)
              | Some (NParent _) => if memN li exclude then Ok None else Panic "unreachable"
              | None => Ok None
              end) in
    let# input := costs 0 (putLeafNodeHashInput li l) in
    costs 1 (hashSum cs input)
  | None =>
    match children x with
    | None => costs 0 (Panic "unreachable")
    | Some (l, r) =>
      match fuel with
      | O => costs 0 Hang
      | S f =>
        let# leftHash := countTreeHashLoop f cs t exclude l in
        let# rightHash := countTreeHashLoop f cs t exclude r in
        let# p := costs 0 (match n with
                  | None => Ok None
                  | Some (NLeaf _) => Panic "unreachable"
                  | Some (NParent p) =>
                    Ok (Some (mkParentNode (pn_encryptionKey p) (pn_parentHash p)
                               (filter (fun li => negb (memN li exclude)) (pn_unmergedLeaves p))))
                  end) in
        let# input := costs 0 (putParentNodeHashInput p leftHash rightHash) in
        costs 1 (hashSum cs input)
      end
    end
  end.
Definition countTreeHash (cs : N) (t : ratchetTree) (x : N) (exclude : list N) : counted bytes :=
  countTreeHashLoop 32 cs t exclude x.

(** tree.go:839-841 computeRootTreeHash *)
Definition countRootTreeHash (cs : N) (t : ratchetTree) : counted bytes :=
  countTreeHash cs t (root (numLeaves t)) [].

(** tree.go:933-967 *)
Definition countParentHashAt (cs : N) (t : ratchetTree) (l r : N) (p : parentNode) : counted bool :=
  let exclude := pn_unmergedLeaves p in
  let# leftTreeHash := countTreeHash cs t l exclude in
  let# rightTreeHash := countTreeHash cs t r exclude in
  let# leftParentHash := costs 1 (computeParentHash cs p rightTreeHash) in
  let# rightParentHash := costs 1 (computeParentHash cs p leftTreeHash) in
  let# resl := costs 0 (resolve t l) in
  let# isLeftDescendant := costs 0 (findParentHash t resl leftParentHash) in
  let# resr := costs 0 (resolve t r) in
  let# isRightDescendant := costs 0 (findParentHash t resr rightParentHash) in
  costs 0 (Ok (negb (Bool.eqb isLeftDescendant isRightDescendant))).

(** tree.go:926-969 verifyParentHashes *)
Fixpoint countParentHashesFrom (cs : N) (t : ratchetTree) (xs : list N) : counted bool :=
  match xs with
  | [] => costs 0 (Ok true)
  | x :: rest =>
    let# n := costs 0 (getN t x) in
    match n with
    | None => countParentHashesFrom cs t rest
    | Some n =>
      match children x with
      | None => countParentHashesFrom cs t rest
      | Some (l, r) =>
        match n with
        | NLeaf _ => costs 0 (Panic "nil pointer dereference")
        | NParent p =>
          let# ok := (let c := countParentHashAt cs t l r p in (falseOnErr (fst c), snd c)) in
          if ok then countParentHashesFrom cs t rest else costs 0 (Ok false)
        end
      end
    end
  end.
Definition countParentHashes (cs : N) (t : ratchetTree) : counted bool :=
  countParentHashesFrom cs t (upto (lenN t)).

(** tree.go:780-804 *)
Fixpoint countLeaves (t : ratchetTree) (ctx : groupContext) (creds : list N) (now : gotime)
    (lis : list N) (sigKeys encKeys : list bytes) : counted (list bytes * list bytes) :=
  match lis with
  | [] => costs 0 (Ok (sigKeys, encKeys))
  | li :: r =>
    let# o := costs 0 (getLeaf t li) in
    match o with
    | None => countLeaves t ctx creds now r sigKeys encKeys
    | Some l =>
      let# _ := costs 1 (leafNodeVerify l (mkVerifyOptions (gc_cipherSuite ctx) (gc_groupID ctx) li creds sigKeys encKeys now)) in
      countLeaves t ctx creds now r (ln_signatureKey l :: sigKeys) (ln_encryptionKey l :: encKeys)
    end
  end.

(** tree.go:759-828 verifyIntegrity *)
Definition countIntegrity (t : ratchetTree) (ctx : groupContext) (now : gotime) : counted unit :=
  let cs := gc_cipherSuite ctx in
  let# h := countRootTreeHash cs t in
  let# _ := costs 0 (guard (bytes_eqb h (gc_treeHash ctx)) "mls: tree hash verification failed") in
  let# ph := countParentHashes cs t in
  let# _ := costs 0 (guard ph "mls: parent hashes verification failed") in
  let# creds := costs 0 (supportedCreds t) in
  let# keys := countLeaves t ctx creds now (upto (numLeaves t)) [] [] in
  costs 0 (verifyParents t (upto (lenN t)) (snd keys)).
End WithCrypto.
