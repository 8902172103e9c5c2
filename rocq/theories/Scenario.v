(** Concrete groups with the toy primitives, for examples and counterexamples. *)
From Verif Require Export Sender Toy.

Definition stranger : keyPackage :=
  mkKeyPackage 0 0 [] (mkLeafNode [] [] (mkCredential 1 [] []) (mkCapabilities [] [] [] [] []) 1 None [] [] []) [] [].
Definition noKeys : keyPairPackage := mkKeyPairPackage stranger [] [] [].
Definition noGroup : group := mkGroup [] [] (mkGroupContext 0 0 [] 0 [] [] []) [] [] [] [] 0 [] [] [].
Definition getOr {A} (d : A) (r : res A) : A := match r with Ok a => a | _ => d end.

Definition clock : gotime := unixTime 2000000100.

Definition person (cs : N) (name : string) : res keyPairPackage :=
  @generateKeyPairPackage toy cs (mkCredential 1 (str name) []) (unixTime 2000000000) (unixTime 2000000000)
    (str (name ++ " init")) (str (name ++ " enc")) (str (name ++ " sig")) [] [].

Definition alice := getOr noKeys (person 1 "alice").
Definition bob := getOr noKeys (person 1 "bob").
Definition carol := getOr noKeys (person 1 "carol").
Definition dave := getOr noKeys (person 1 "dave").

(** Alice creates a group and invites Bob and Carol. *)
Definition started : res (group * group * group) :=
  let! g := @createGroup toy (str "grp") alice (zeros 32) in
  let '(g1, r) := @createWelcome toy g [kpp_public bob; kpp_public carol] [] [] [str "x"; str "y"] (str "abcd") in
  let! (w, m) := r in
  let '(ga, r2) := @unmarshalAndProcessMessage toy g1 m clock in
  let! _ := r2 in
  let! gb := @groupFromWelcome toy w bob clock in
  let! gc := @groupFromWelcome toy w carol clock in
  Ok (ga, gb, gc).

Definition trio : group * group * group := Eval vm_compute in getOr (noGroup, noGroup, noGroup) started.
Definition ga := fst (fst trio).
Definition gb := snd (fst trio).
Definition gc := snd trio.

(** What a member does with bytes that may not exist *)
Definition receive (g : group) (r : res bytes) : group * res (option bytes) :=
  match r with Ok raw => @unmarshalAndProcessMessage toy g raw clock | _ => (g, Err "no message") end.
