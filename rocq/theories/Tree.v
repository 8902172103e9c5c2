(** The ratchet tree (tree.go:604-1330).

    A Go ratchetTree is a slice of pointers to nodes.  Functions that only read
    the tree are modelled on the value a tree denotes, a [ratchetTree] (list of
    optional nodes).  [ratchetTree.copy] copies the pointers only, so functions
    that modify a tree are modelled on [heap] and [ptree] (list of optional
    pointers): see the second part.  Their counterparts on values (prefix [v])
    are what the theorems of TreeFacts.v relate them to. *)
From Verif Require Export Leaf.

(** [tree[int(i)]] and [tree[int(i)] = a] (tree.go:674-680) *)
Definition getN {A} (t : list A) (x : N) : res A :=
  if x <? lenN t then index t (N.to_nat x) else Panic "index out of range".
Definition setN {A} (t : list A) (x : N) (a : A) : res (list A) :=
  if x <? lenN t then Ok (upd t (N.to_nat x) a) else Panic "index out of range".

(** [for _, x := range l { ... }] with an accumulator *)
Fixpoint foldM {S A} (f : S -> A -> res S) (s : S) (l : list A) : res S :=
  match l with
  | [] => Ok s
  | a :: r => let! s' := f s a in foldM f s' r
  end.

(** [for li := 0; li < n; li++] *)
Definition upto (n : N) : list N := map N.of_nat (seq 0 (N.to_nat n)).

(** tree.go:991-993 numLeaves *)
Definition numLeaves {A} (t : list A) : N := numLeavesFromWidth (w32 (lenN t)).

(** tree.go:604-613 node.encryptionKey *)
Definition node_encryptionKey (n : node) : bytes :=
  match n with NLeaf l => ln_encryptionKey l | NParent p => pn_encryptionKey p end.

(** tree.go:682-691 getLeaf *)
Definition getLeaf (t : ratchetTree) (li : N) : res (option leafNode) :=
  let! o := getN t (nodeIndexOf li) in
  match o with
  | None => Ok None
  | Some (NLeaf l) => Ok (Some l)
  | Some (NParent _) => Panic "unreachable"
  end.

(** tree.go:694-711 resolve.  Children are one level below, and the level of a
    uint32 is at most 32. *)
Fixpoint resolveLoop (fuel : nat) (t : ratchetTree) (x : N) : res (list N) :=
  let! o := getN t x in
  match o with
  | None =>
    match children x with
    | None => Ok []
    | Some (l, r) =>
      match fuel with
      | O => Hang
      | S f =>
        let! a := resolveLoop f t l in
        let! b := resolveLoop f t r in
        Ok (a ++ b)
      end
    end
  | Some (NLeaf _) => Ok [x]
  | Some (NParent p) => Ok (x :: map nodeIndexOf (pn_unmergedLeaves p))
  end.
Definition resolve (t : ratchetTree) (x : N) : res (list N) := resolveLoop 32 t x.

(** The loops over all members (tree.go:716-720, 741-745, 996-1000, ...):
    index and leaf of every non-blank leaf. *)
Fixpoint membersFrom (t : ratchetTree) (lis : list N) : res (list (N * leafNode)) :=
  match lis with
  | [] => Ok []
  | li :: r =>
    let! o := getLeaf t li in
    let! m := membersFrom t r in
    match o with None => Ok m | Some l => Ok ((li, l) :: m) end
  end.
Definition members (t : ratchetTree) : res (list (N * leafNode)) := membersFrom t (upto (numLeaves t)).

(** tree.go:713-736 supportedCreds; the resulting set is a list. *)
Definition supportedCreds (t : ratchetTree) : res (list N) :=
  let! m := members t in
  let listed := flat_map (fun p => caps_credentials (ln_capabilities (snd p))) m in
  Ok (filter (fun ct => (List.length (filter (N.eqb ct) listed) =? List.length m)%nat) listed).

(** tree.go:738-750 keys *)
Definition treeKeys (t : ratchetTree) : res (list bytes * list bytes) :=
  let! m := members t in
  Ok (map (fun p => ln_signatureKey (snd p)) m, map (fun p => ln_encryptionKey (snd p)) m).

(** tree.go:830-837 hasUnmergedLeaf *)
Definition hasUnmergedLeaf (p : parentNode) (li : N) : bool := memN li (pn_unmergedLeaves p).

(** tree.go:907-914 marshalLeafNodeHashInput, 916-924 marshalParentNodeHashInput *)
Definition putLeafNodeHashInput (li : N) (l : option leafNode) : W :=
  addUint8 1 +++ addUint32 li +++
  match l with Some n => writeOptional true +++ putLeafNode n | None => writeOptional false end.
Definition putParentNodeHashInput (p : option parentNode) (leftHash rightHash : bytes) : W :=
  addUint8 2 +++
  match p with Some n => writeOptional true +++ putParentNode n | None => writeOptional false end +++
  writeOpaqueVec leftHash +++ writeOpaqueVec rightHash.

Section WithCrypto.
Context {C : crypto}.

(** tree.go:843-905 computeTreeHash; [exclude] is the key set of the map. *)
Fixpoint treeHashLoop (fuel : nat) (cs : N) (t : ratchetTree) (exclude : list N) (x : N) : res bytes :=
  let! n := getN t x in
  match leafIndexOf x with
  | Some li =>
    let! l := match n with
              | Some (NLeaf l) => Ok (if memN li exclude then None else Some l)
              | Some (NParent _) => if memN li exclude then Ok None else Panic "unreachable"
              | None => Ok None
              end in
    let! input := putLeafNodeHashInput li l in
    hashSum cs input
  | None =>
    match children x with
    | None => Panic "unreachable"
    | Some (l, r) =>
      match fuel with
      | O => Hang
      | S f =>
        let! leftHash := treeHashLoop f cs t exclude l in
        let! rightHash := treeHashLoop f cs t exclude r in
        let! p := match n with
                  | None => Ok None
                  | Some (NLeaf _) => Panic "unreachable"
                  | Some (NParent p) =>
                    Ok (Some (mkParentNode (pn_encryptionKey p) (pn_parentHash p)
                               (filter (fun li => negb (memN li exclude)) (pn_unmergedLeaves p))))
                  end in
        let! input := putParentNodeHashInput p leftHash rightHash in
        hashSum cs input
      end
    end
  end.
Definition computeTreeHash (cs : N) (t : ratchetTree) (x : N) (exclude : list N) : res bytes :=
  treeHashLoop 32 cs t exclude x.

(** tree.go:839-841 computeRootTreeHash *)
Definition computeRootTreeHash (cs : N) (t : ratchetTree) : res bytes :=
  computeTreeHash cs t (root (numLeaves t)) [].

(** tree.go:971-989 findParentHash *)
Fixpoint findParentHash (t : ratchetTree) (indices : list N) (parentHash : bytes) : res bool :=
  match indices with
  | [] => Ok false
  | x :: r =>
    let! o := getN t x in
    match o with
    | None => findParentHash t r parentHash
    | Some n =>
      let h := match n with NLeaf l => ln_parentHash l | NParent p => pn_parentHash p end in
      if bytes_eqb h parentHash then Ok true else findParentHash t r parentHash
    end
  end.

(** tree.go:933-967, the body of the loop of verifyParentHashes for a non-blank
    intermediate node; errors make the verification fail. *)
Definition verifyParentHashAt (cs : N) (t : ratchetTree) (l r : N) (p : parentNode) : res bool :=
  let exclude := pn_unmergedLeaves p in
  let! leftTreeHash := computeTreeHash cs t l exclude in
  let! rightTreeHash := computeTreeHash cs t r exclude in
  let! leftParentHash := computeParentHash cs p rightTreeHash in
  let! rightParentHash := computeParentHash cs p leftTreeHash in
  let! resl := resolve t l in
  let! isLeftDescendant := findParentHash t resl leftParentHash in
  let! resr := resolve t r in
  let! isRightDescendant := findParentHash t resr rightParentHash in
  Ok (negb (Bool.eqb isLeftDescendant isRightDescendant)).

(** tree.go:926-969 verifyParentHashes *)
Fixpoint verifyParentHashesFrom (cs : N) (t : ratchetTree) (xs : list N) : res bool :=
  match xs with
  | [] => Ok true
  | x :: rest =>
    let! n := getN t x in
    match n with
    | None => verifyParentHashesFrom cs t rest
    | Some n =>
      match children x with
      | None => verifyParentHashesFrom cs t rest
      | Some (l, r) =>
        match n with
        | NLeaf _ => Panic "nil pointer dereference"
        | NParent p =>
          let! ok := falseOnErr (verifyParentHashAt cs t l r p) in
          if ok then verifyParentHashesFrom cs t rest else Ok false
        end
      end
    end
  end.
Definition verifyParentHashes (cs : N) (t : ratchetTree) : res bool :=
  verifyParentHashesFrom cs t (upto (lenN t)).

(** tree.go:780-804, the loop of verifyIntegrity over the leaves; returns the
    signature and encryption keys seen. *)
Fixpoint verifyLeaves (t : ratchetTree) (ctx : groupContext) (creds : list N) (now : gotime)
    (lis : list N) (sigKeys encKeys : list bytes) : res (list bytes * list bytes) :=
  match lis with
  | [] => Ok (sigKeys, encKeys)
  | li :: r =>
    let! o := getLeaf t li in
    match o with
    | None => verifyLeaves t ctx creds now r sigKeys encKeys
    | Some l =>
      let! _ := leafNodeVerify l (mkVerifyOptions (gc_cipherSuite ctx) (gc_groupID ctx) li creds sigKeys encKeys now) in
      verifyLeaves t ctx creds now r (ln_signatureKey l :: sigKeys) (ln_encryptionKey l :: encKeys)
    end
  end.

(** tree.go:811-825, the walk from an unmerged leaf up to the node [p] listing
    it.  At 2^32-1 the parent function has a fixpoint; 33 steps get there. *)
Fixpoint verifyUnmergedLeaf (fuel : nat) (t : ratchetTree) (n p unmergedLeaf x : N) : res unit :=
  match parent n x with
  | None => Err "mls: unmerged leaf is not a descendant of the parent node"
  | Some x' =>
    if x' =? p then Ok tt else
    let! o := getN t x' in
    let! _ := match o with
              | None => Ok tt
              | Some (NLeaf _) => Panic "nil pointer dereference"
              | Some (NParent q) => guard (hasUnmergedLeaf q unmergedLeaf) "mls: non-blank intermediate node is missing unmerged leaf"
              end in
    match fuel with
    | O => Hang
    | S f => verifyUnmergedLeaf f t n p unmergedLeaf x'
    end
  end.

(** tree.go:806-826, the loop of verifyIntegrity over the parent nodes *)
Fixpoint verifyParents (t : ratchetTree) (xs : list N) (encKeys : list bytes) : res unit :=
  match xs with
  | [] => Ok tt
  | x :: r =>
    let! o := getN t x in
    match o with
    | Some (NParent p) =>
      let! _ := foldM (fun _ li => verifyUnmergedLeaf 40 t (numLeaves t) x li (nodeIndexOf li)) tt (pn_unmergedLeaves p) in
      let! _ := guard (negb (memB (pn_encryptionKey p) encKeys)) "mls: duplicate encryption key in ratchet tree" in
      verifyParents t r (pn_encryptionKey p :: encKeys)
    | _ => verifyParents t r encKeys
    end
  end.

(** tree.go:759-828 verifyIntegrity *)
Definition verifyIntegrity (t : ratchetTree) (ctx : groupContext) (now : gotime) : res unit :=
  let cs := gc_cipherSuite ctx in
  let! h := computeRootTreeHash cs t in
  let! _ := guard (bytes_eqb h (gc_treeHash ctx)) "mls: tree hash verification failed" in
  let! ph := verifyParentHashes cs t in
  let! _ := guard ph "mls: parent hashes verification failed" in
  let! creds := supportedCreds t in
  let! keys := verifyLeaves t ctx creds now (upto (numLeaves t)) [] [] in
  verifyParents t (upto (lenN t)) (snd keys).

(** tree.go:995-1013 findLeaf *)
Fixpoint findLeafFrom (t : ratchetTree) (l : leafNode) (lis : list N) : res (option N) :=
  match lis with
  | [] => Ok None
  | li :: r =>
    let! o := getLeaf t li in
    match o with
    | None => findLeafFrom t l r
    | Some n =>
      if negb (bytes_eqb (ln_encryptionKey n) (ln_encryptionKey l)) then findLeafFrom t l r
      else match putLeafNode l, putLeafNode n with
           | Ok raw1, Ok raw2 => Ok (if bytes_eqb raw1 raw2 then Some li else None)
           | Panic p, _ | _, Panic p => Panic p
           | Hang, _ | _, Hang => Hang
           | _, _ => Ok None
           end
    end
  end.
Definition findLeaf (t : ratchetTree) (l : leafNode) : res (option N) := findLeafFrom t l (upto (numLeaves t)).

(** tree.go:1115-1138 filteredDirectPath *)
Fixpoint filteredDirectPathLoop (fuel : nat) (t : ratchetTree) (x : N) : res (list N) :=
  let n := numLeaves t in
  match parent n x with
  | None => Ok []
  | Some p =>
    match sibling n x with
    | None => Panic "unreachable"
    | Some s =>
      let! r := resolve t s in
      match fuel with
      | O => Hang
      | S f =>
        let! rest := filteredDirectPathLoop f t p in
        Ok (match r with [] => rest | _ => p :: rest end)
      end
    end
  end.
Definition filteredDirectPath (t : ratchetTree) (x : N) : res (list N) := filteredDirectPathLoop 33 t x.

(** tree.go:1167-1199, the loop of mergeUpdatePath computing parent hashes from
    the root down; [fdp] is the filtered direct path from the root down. *)
Fixpoint mergeParentHashes (cs : N) (sender : N) (directPath : list N) (t : ratchetTree) (prev : bytes) (fdp : list N)
  : res (ratchetTree * bytes) :=
  match fdp with
  | [] => Ok (t, prev)
  | ni :: r =>
    let! o := getN t ni in
    match o with
    | Some (NParent p) =>
      match children ni with
      | None => Panic "unreachable"
      | Some (lc, rc) =>
        let s := if (lc =? sender) || memN lc directPath then rc else lc in
        let! treeHash := computeTreeHash cs t s [] in
        let p' := mkParentNode (pn_encryptionKey p) prev (pn_unmergedLeaves p) in
        let! t' := setN t ni (Some (NParent p')) in
        let! h := computeParentHash cs p' treeHash in
        mergeParentHashes cs sender directPath t' h r
      end
    | _ => Panic "nil pointer dereference"
    end
  end.

(** tree.go:1140-1209 mergeUpdatePath, on the value of the tree *)
Definition mergeUpdatePath (cs : N) (t : ratchetTree) (senderLeafIndex : N) (path : updatePath) : res ratchetTree :=
  let sender := nodeIndexOf senderLeafIndex in
  let! dp := directPath (numLeaves t) sender in
  let! t1 := foldM (fun t ni => setN t ni None) t dp in
  let! fdp := filteredDirectPath t1 sender in
  let! _ := guard (lenN fdp =? lenN (up_nodes path)) "mls: UpdatePath and filtered direct path have different lengths" in
  let! t2 := foldM (fun t p => setN t (fst p) (Some (NParent (mkParentNode (upn_encryptionKey (snd p)) [] []))))
                   t1 (combine fdp (up_nodes path)) in
  let! (t3, prev) := mergeParentHashes cs sender dp t2 [] (rev fdp) in
  let! _ := guard (bytes_eqb (ln_parentHash (up_leafNode path)) prev) "mls: parent hash mismatch for update path's leaf node" in
  setN t3 sender (Some (NLeaf (up_leafNode path))).

(** A private tree: [privTree[i] == nil] is [None]. *)
Definition privTree := list (option bytes).

(** tree.go:1224-1230, position of a node in a path *)
Fixpoint position (x : N) (l : list N) : option nat :=
  match l with
  | [] => None
  | y :: r => if y =? x then Some O else option_map S (position x r)
  end.

(** tree.go:1259-1265, first node of a resolution with a known private key *)
Fixpoint findPriv (priv : privTree) (i : nat) (resolution : list N) : res (option (nat * bytes)) :=
  match resolution with
  | [] => Ok None
  | ni :: r =>
    let! p := getN priv ni in
    match p with
    | Some k => Ok (Some (i, k))
    | None => findPriv priv (S i) r
    end
  end.

(** tree.go:1286-1296, deriving the private keys further up *)
Fixpoint derivePath (cs : N) (t : ratchetTree) (priv : privTree) (pathSecret : bytes) (path : list N)
  : res (privTree * bytes) :=
  match path with
  | [] => Ok (priv, pathSecret)
  | ni :: r =>
    let! pathSecret' := deriveSecret cs pathSecret (str "path") in
    let! o := getN t ni in
    match o with
    | None => Panic "nil pointer dereference"
    | Some n =>
      let! nodePriv := nodePrivFromPathSecret cs pathSecret' (node_encryptionKey n) in
      let! priv' := setN priv ni (Some nodePriv) in
      derivePath cs t priv' pathSecret' r
    end
  end.

(** tree.go:1211-1303 decryptPathSecrets: the commit secret and the updated
    private tree *)
Definition decryptPathSecrets (cs : N) (t : ratchetTree) (groupCtx : groupContext)
    (senderLeafIndex recipientLeafIndex : N) (path : updatePath) (priv : privTree) : res (bytes * privTree) :=
  let sender := nodeIndexOf senderLeafIndex in
  let recipient := nodeIndexOf recipientLeafIndex in
  let! fdp := filteredDirectPath t sender in
  let! _ := guard (lenN (up_nodes path) =? lenN fdp) "mls: invalid UpdatePath length" in
  let ancestor := commonAncestor sender recipient in
  match position ancestor fdp with
  | None => Err "mls: cannot find recipient ancestor"
  | Some i =>
    let! upn := index (up_nodes path) i in
    match (if recipient <? sender then left ancestor else right ancestor) with
    | None => Panic "unreachable"
    | Some copathNode =>
      let! copathResolution := resolve t copathNode in
      let! _ := guard (lenN (upn_encryptedPathSecret upn) =? lenN copathResolution) "mls: invalid UpdatePathNode.encrypted_path_secret length" in
      let! found := findPriv priv O copathResolution in
      match found with
      | None => Err "mls: no private key found"
      | Some (resolutionIndex, nodePriv) =>
        let! ciphertext := index (upn_encryptedPathSecret upn) resolutionIndex in
        let! pathSecret := decryptPathSecret cs nodePriv groupCtx ciphertext in
        let! o := getN t ancestor in
        match o with
        | None => Panic "nil pointer dereference"
        | Some n =>
          let! nodePriv' := nodePrivFromPathSecret cs pathSecret (node_encryptionKey n) in
          let! priv1 := setN priv ancestor (Some nodePriv') in
          let! (priv2, pathSecret') := derivePath cs t priv1 pathSecret (skipn (S i) fdp) in
          let! commitSecret := deriveSecret cs pathSecret' (str "path") in
          Ok (commitSecret, priv2)
        end
      end
    end
  end.

End WithCrypto.

(** ** Operations on trees of anything: pointers or values *)
Section Shape.
Context {A : Type}.
Notation tree := (list (option A)).

(** tree.go:1016-1031, looking for a free leaf.  [2*li] cannot wrap before the
    end of the tree is reached. *)
Fixpoint freeSlot (fuel : nat) (t : tree) (li : N) : res (bool * N) :=
  let ni := nodeIndexOf li in
  if lenN t <=? ni then Ok (false, li) else
  let! o := getN t ni in
  match o with
  | None => Ok (true, li)
  | Some _ => match fuel with O => Hang | S f => freeSlot f t (li + 1) end
  end.

(** tree.go:1016-1037, a free leaf, after extending the tree if there is none *)
Definition addSlot (t : tree) : res (tree * N) :=
  let! (found, li) := freeSlot (S (length t)) t 0 in
  Ok (if found then t else t ++ repeat None (S (length t)), li).

(** tree.go:1057-1075 update: [a] is the new leaf.  The index is in range once
    [set] has succeeded, so the walk to the root ends. *)
Definition update (t : tree) (li : N) (a : A) : res tree :=
  let ni := nodeIndexOf li in
  let! t1 := setN t ni (Some a) in
  let! dp := directPath (numLeaves t) ni in
  foldM (fun t x => setN t x None) t1 dp.

(** tree.go:1092-1108, the loop of remove looking for the last member *)
Fixpoint lastMember (fuel : nat) (t : tree) (li : N) (lastPowerOf2 : N) : res (option N) :=
  let ni := nodeIndexOf li in
  let! o := getN t ni in
  match o with
  | Some _ => Ok (Some lastPowerOf2)
  | None =>
    let lp := if isPowerOf2 ni then ni else lastPowerOf2 in
    if li =? 0 then Ok None
    else match fuel with O => Hang | S f => lastMember f t (li - 1) lp end
  end.

(** tree.go:1077-1113 remove *)
Definition remove (t : tree) (li : N) : res tree :=
  let ni := nodeIndexOf li in
  let! t1 := setN t ni None in
  let! dp := directPath (numLeaves t) ni in
  let! t2 := foldM (fun t x => setN t x None) t1 dp in
  let! r := lastMember (length t) t2 (numLeaves t - 1) (lenN t2 + 1) in
  match r with
  | None => Ok []
  | Some lp => Ok (if lp <? lenN t2 + 1 then firstn (N.to_nat (lp - 1)) t2 else t2)
  end.
End Shape.

(** ** The mutators on values *)
Definition addUnmergedLeaf (p : parentNode) (li : N) : parentNode :=
  mkParentNode (pn_encryptionKey p) (pn_parentHash p) (pn_unmergedLeaves p ++ [li]).

(** tree.go:1015-1055 add *)
Definition vadd (t : ratchetTree) (l : leafNode) : res ratchetTree :=
  let! (t1, li) := addSlot t in
  let ni := nodeIndexOf li in
  let! dp := directPath (numLeaves t1) ni in
  let! t2 := foldM (fun t x =>
                      let! o := getN t x in
                      match o with
                      | None => Ok t
                      | Some (NParent p) => setN t x (Some (NParent (addUnmergedLeaf p li)))
                      | Some (NLeaf _) => Panic "nil pointer dereference"
                      end) t1 dp in
  setN t2 ni (Some (NLeaf l)).

(** tree.go:1305-1330 apply *)
Definition vapply (t : ratchetTree) (props : list proposal) (senders : list N) : res ratchetTree :=
  let! t1 := foldM (fun t ip => match snd ip with
                                | PUpdate l => let! s := index senders (fst ip) in update t s (NLeaf l)
                                | _ => Ok t
                                end) t (combine (seq 0 (length props)) props) in
  let! t2 := foldM (fun t p => match p with PRemove li => remove t li | _ => Ok t end) t1 props in
  foldM (fun t p => match p with PAdd k => vadd t (kp_leafNode k) | _ => Ok t end) t2 props.

(** ** The mutators on the heap *)

(** The nodes allocated so far; a pointer is a position.  tree.go:619: a
    ratchetTree is a slice of pointers, and copy (tree.go:665-669) copies it, so
    a copy is the same list of pointers. *)
Definition heap := list node.
Definition ptree := list (option nat).

(** The value a tree denotes *)
Definition deref (h : heap) (t : ptree) : ratchetTree :=
  map (fun o => match o with None => None | Some p => nth_error h p end) t.

(** A fresh node *)
Definition alloc (h : heap) (n : node) : heap * nat := (h ++ [n], length h).

(** tree.go:1038-1048: [node.parentNode.unmergedLeaves = append(...)] modifies
    the node, which other trees may share. *)
Definition addUnmergedH (h : heap) (t : ptree) (li : N) (dp : list N) : res heap :=
  foldM (fun h x =>
           let! o := getN t x in
           match o with
           | None => Ok h
           | Some p =>
             let! n := index h p in
             match n with
             | NParent q => Ok (upd h p (NParent (addUnmergedLeaf q li)))
             | NLeaf _ => Panic "nil pointer dereference"
             end
           end) h dp.

(** tree.go:1015-1055 add *)
Definition addH (h : heap) (t : ptree) (l : leafNode) : res (heap * ptree) :=
  let! (t1, li) := addSlot t in
  let ni := nodeIndexOf li in
  let! dp := directPath (numLeaves t1) ni in
  let! h1 := addUnmergedH h t1 li dp in
  let '(h2, p) := alloc h1 (NLeaf l) in
  let! t2 := setN t1 ni (Some p) in
  Ok (h2, t2).

(** tree.go:1057-1075 update *)
Definition updateH (h : heap) (t : ptree) (li : N) (l : leafNode) : res (heap * ptree) :=
  let '(h1, p) := alloc h (NLeaf l) in
  let! t1 := update t li p in
  Ok (h1, t1).

(** tree.go:1305-1330 apply *)
Definition applyH (h : heap) (t : ptree) (props : list proposal) (senders : list N) : res (heap * ptree) :=
  let! (h1, t1) := foldM (fun ht ip => match snd ip with
                                | PUpdate l => let! s := index senders (fst ip) in updateH (fst ht) (snd ht) s l
                                | _ => Ok ht
                                end) (h, t) (combine (seq 0 (length props)) props) in
  let! t2 := foldM (fun t p => match p with PRemove li => remove t li | _ => Ok t end) t1 props in
  foldM (fun ht p => match p with PAdd k => addH (fst ht) (snd ht) (kp_leafNode k) | _ => Ok ht end) (h1, t2) props.

(** tree.go:1140-1209 mergeUpdatePath: every node written is a fresh one, so
    the positions written (the direct path and the leaf) get the nodes of the
    resulting value, and the other positions keep their pointers. *)
Definition writeBack (v : ratchetTree) (ht : heap * ptree) (x : N) : res (heap * ptree) :=
  let! o := getN v x in
  match o with
  | None => let! t := setN (snd ht) x None in Ok (fst ht, t)
  | Some n => let '(h1, p) := alloc (fst ht) n in let! t := setN (snd ht) x (Some p) in Ok (h1, t)
  end.
Definition mergeUpdatePathH {C : crypto} (cs : N) (h : heap) (t : ptree) (senderLeafIndex : N) (path : updatePath)
  : res (heap * ptree) :=
  let! v := mergeUpdatePath cs (deref h t) senderLeafIndex path in
  let! dp := directPath (numLeaves t) (nodeIndexOf senderLeafIndex) in
  foldM (writeBack v) (h, t) (nodeIndexOf senderLeafIndex :: dp).
