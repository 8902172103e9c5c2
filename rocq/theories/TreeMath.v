(** Array-based complete binary trees (tree_math.go).  Node and leaf indices
    are uint32: every arithmetic operation that can leave that range is reduced
    modulo 2^32.  A Go result pair [(v, ok)] is an option. *)
From Verif Require Export Codec.

Definition w32 (x : N) : N := x mod 2^32.

(** tree_math.go:26-31 numLeavesFromWidth *)
Definition numLeavesFromWidth (w : N) : N := if w =? 0 then 0 else (w - 1) / 2 + 1.

(** tree_math.go:34-39 numLeaves.width *)
Definition width (n : N) : N := if n =? 0 then 0 else w32 (2 * (n - 1) + 1).

(** tree_math.go:195-205 log2; the shift of a uint32 by 32 is 0, so the loop
    runs at most 32 times. *)
Fixpoint log2Loop (fuel : nat) (x k : N) : N :=
  match fuel with
  | O => k - 1
  | S f => if 0 <? N.shiftr x k then log2Loop f x (k + 1) else k - 1
  end.
Definition log2 (x : N) : N := if x =? 0 then 0 else log2Loop 32 x 0.

(** tree_math.go:42-44 root *)
Definition root (n : N) : N := w32 (N.shiftl 1 (log2 (width n))) - 1.

(** tree_math.go:155-164 level; x>>32 is 0, so the loop runs at most 32 times. *)
Fixpoint levelLoop (fuel : nat) (x lvl : N) : N :=
  match fuel with
  | O => lvl
  | S f => if N.land (N.shiftr x lvl) 1 =? 1 then levelLoop f x (lvl + 1) else lvl
  end.
Definition level (x : N) : N := if N.land x 1 =? 0 then 0 else levelLoop 32 x 0.

(** tree_math.go:47-55 parent *)
Definition parent (n x : N) : option N :=
  if x =? root n then None else
  let lvl := level x in
  let b := N.land (N.shiftr x (lvl + 1)) 1 in
  Some (N.lxor (N.lor x (w32 (N.shiftl 1 lvl))) (w32 (N.shiftl b (lvl + 1)))).

(** tree_math.go:110-112 isLeaf *)
Definition isLeaf (x : N) : bool := x mod 2 =? 0.

(** tree_math.go:115-120 nodeIndex.leafIndex *)
Definition leafIndexOf (x : N) : option N := if isLeaf x then Some (N.shiftr x 1) else None.

(** tree_math.go:190-192 leafIndex.nodeIndex: [2*li] wraps around. *)
Definition nodeIndexOf (li : N) : N := w32 (2 * li).

(** tree_math.go:123-130 left, 133-140 right *)
Definition left (x : N) : option N :=
  let lvl := level x in
  if lvl =? 0 then None else Some (N.lxor x (w32 (N.shiftl 1 (lvl - 1)))).
Definition right (x : N) : option N :=
  let lvl := level x in
  if lvl =? 0 then None else Some (N.lxor x (w32 (N.shiftl 3 (lvl - 1)))).

(** tree_math.go:144-151 children *)
Definition children (x : N) : option (N * N) :=
  match left x with
  | None => None
  | Some l => Some (l, match right x with Some r => r | None => 0 end)
  end.

(** tree_math.go:58-68 sibling *)
Definition sibling (n x : N) : option N :=
  match parent n x with
  | None => None
  | Some p => if x <? p then right p else left p
  end.

(** tree_math.go:71-82 directPath.  Each step goes one level up; at level 32
    ([x = 2^32-1]) the parent of [x] is [x] again, so a walk that has not
    reached the root after 33 steps never ends. *)
Fixpoint directPathLoop (fuel : nat) (n x : N) : res (list N) :=
  match parent n x with
  | None => Ok []
  | Some p =>
    match fuel with
    | O => Hang
    | S f => rmap (cons p) (directPathLoop f n p)
    end
  end.
Definition directPath (n x : N) : res (list N) := directPathLoop 33 n x.

(** tree_math.go:92-99, the loop of copath *)
Fixpoint siblings (n : N) (path : list N) : res (list N) :=
  match path with
  | [] => Ok []
  | y :: r => match sibling n y with
              | None => Panic "unreachable"
              | Some s => rmap (cons s) (siblings n r)
              end
  end.

(** tree_math.go:85-103 copath *)
Definition copath (n x : N) : res (list N) :=
  let! path := directPath n x in
  match path with
  | [] => Ok []
  | _ => siblings n (removelast (x :: path))
  end.

(** tree_math.go:179-185, the loop of commonAncestor; both are 0 after 32
    shifts. *)
Fixpoint commonAncestorLoop (fuel : nat) (xn yn k : N) : N * N :=
  match fuel with
  | O => (xn, k)
  | S f => if xn =? yn then (xn, k) else commonAncestorLoop f (N.shiftr xn 1) (N.shiftr yn 1) (k + 1)
  end.

(** tree_math.go:168-186 commonAncestor *)
Definition commonAncestor (x y : N) : N :=
  let lx := level x + 1 in
  let ly := level y + 1 in
  if (lx <=? ly) && (N.shiftr x ly =? N.shiftr y ly) then y
  else if (ly <=? lx) && (N.shiftr x lx =? N.shiftr y lx) then x
  else let '(xn, k) := commonAncestorLoop 32 x y 0 in
       w32 (N.shiftl xn k + N.shiftl 1 (k - 1) - 1).
