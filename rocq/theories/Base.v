(** Outcomes, loops and Rust vectors: the few notions shared by all modelled files.
    No definition here models a particular file of /repo; each says which Rust
    construct it stands for. *)
From Coq Require Export String.
From Coq Require Export ZArith Bool Lia.
From Coq Require Export List.
Export ListNotations.
Open Scope Z_scope.

(** Result of running Rust code.  [Panic] is any Rust panic (bounds check, failed
    assertion, division by zero, unwrap of None).  [Exit s i] is
    src/xerbla.rs:22-28: the message for routine [s], parameter [i] is printed and
    the process exits.  [NoFuel] is only produced by loops whose number of iterations
    the Rust code does not bound. *)
Inductive outcome (A : Type) : Type :=
| Ok (a : A)
| Panic
| Exit (srname : string) (info : Z)
| NoFuel.
Arguments Ok {A} a.
Arguments Panic {A}.
Arguments Exit {A} srname info.
Arguments NoFuel {A}.

(** Sequencing: the rest of the routine runs only after a normal outcome (used for every call in /repo/src/*.rs that can panic or exit). *)
Definition bind {A B} (m : outcome A) (k : A -> outcome B) : outcome B :=
  match m with
  | Ok a => k a
  | Panic => Panic
  | Exit s i => Exit s i
  | NoFuel => NoFuel
  end.

Notation "x <- m ;; k" := (bind m (fun x => k))
  (at level 61, m at next level, right associativity).
Notation "' p <- m ;; k" := (bind m (fun x => match x with p => k end))
  (at level 61, p pattern, m at next level, right associativity).

(** The indices of a Rust range, in iteration order (src/blas/dgemm.rs:88, src/dlahqr.rs:107, ...). *)
Fixpoint zup (lo st : Z) (n : nat) : list Z :=
  match n with
  | O => []
  | S n' => lo :: zup (lo + st) st n'
  end.

(** [lo..=hi] (and [lo..hi] as [lo..=hi-1]), e.g. src/blas/dgemm.rs:88, src/blas/dtrmm.rs:103. *)
Definition range (lo hi : Z) : list Z := zup lo 1 (Z.to_nat (hi - lo + 1)).

(** [(lo..=hi).rev()], e.g. src/blas/dtrmm.rs:115, src/dlahqr.rs:107. *)
Definition range_rev (lo hi : Z) : list Z := zup hi (-1) (Z.to_nat (hi - lo + 1)).

(** [(lo..=hi).step_by(st)] for [st >= 1], e.g. src/blas/dcopy.rs:44, src/dlaqr5.rs:98. *)
Definition range_step (lo hi st : Z) : list Z :=
  if hi <? lo then [] else zup lo st (Z.to_nat ((hi - lo) / st + 1)).

(** [for i in is { body }] without early exit, e.g. src/blas/dgemm.rs:88-92. *)
Definition for_ {S} (is : list Z) (s : S) (body : Z -> S -> S) : S :=
  fold_left (fun s i => body i s) is s.

(** [for i in is { body }] where the body can [break] (second component [true]),
    e.g. src/dlahqr.rs:107-124, 207-235. *)
Fixpoint for_brk {S} (is : list Z) (s : S) (body : Z -> S -> S * bool) : S :=
  match is with
  | [] => s
  | i :: is' => let (s', brk) := body i s in if brk then s' else for_brk is' s' body
  end.

(** [for i in is { body }] where the body can panic, e.g. src/dlahqr.rs:237-327. *)
Fixpoint for_M {S} (is : list Z) (s : S) (body : Z -> S -> outcome S) : outcome S :=
  match is with
  | [] => Ok s
  | i :: is' => s' <- body i s ;; for_M is' s' body
  end.

(** [for i in is { body }] where the body can panic and can [break]:
    src/dlahqr.rs:105-328. *)
Fixpoint for_brk_M {S} (is : list Z) (s : S) (body : Z -> S -> outcome (S * bool)) : outcome S :=
  match is with
  | [] => Ok s
  | i :: is' =>
      r <- body i s ;;
      if (snd r : bool) then Ok (fst r) else for_brk_M is' (fst r) body
  end.

(** [Vec::get(p)] for a mathematical offset [p]; a negative offset stands for the
    huge usize it is cast to (src/array/indexing.rs:13, 42). *)
Definition zget {A} (l : list A) (p : Z) : option A :=
  if p <? 0 then None else nth_error l (Z.to_nat p).

(** Replace element n of a Vec (the store behind src/array/indexing.rs:28-33, 56-60). *)
Fixpoint upd {A} (l : list A) (n : nat) (x : A) : list A :=
  match l, n with
  | [], _ => []
  | _ :: l', O => x :: l'
  | y :: l', S n' => y :: upd l' n' x
  end.

(** [*v.get_mut(p).unwrap() = x] when [p] is inside, nothing otherwise
    (src/array/indexing.rs:28, 56). *)
Definition zset {A} (l : list A) (p : Z) (x : A) : list A :=
  if p <? 0 then l else upd l (Z.to_nat p) x.

(** [Vec::len] (src/array/mod.rs:49, 55, 88). *)
Definition zlen {A} (l : list A) : Z := Z.of_nat (length l).

(** [v[p..].to_vec()]: panics when [p > len] (src/array/indexing.rs:69, 80). *)
Definition slice_from {A} (l : list A) (p : Z) : outcome (list A) :=
  if (p <? 0) || (zlen l <? p) then Panic else Ok (skipn (Z.to_nat p) l).

(** [v[..p].to_vec()]: panics when [p > len] (src/dlaqr5.rs:408, 422, 437). *)
Definition slice_to {A} (l : list A) (p : Z) : outcome (list A) :=
  if (p <? 0) || (zlen l <? p) then Panic else Ok (firstn (Z.to_nat p) l).

(** [v[p]] on a Vec (src/array/display.rs:23, src/dlahqr.rs:360). *)
Definition vec_get {A} (l : list A) (p : Z) : outcome A :=
  match zget l p with Some x => Ok x | None => Panic end.
