(** * Base: characters, outcomes, the state monad used by the whole model.

    Nothing in this file models library code.  It fixes how C++ notions are
    represented: bytes, undefined behaviour, assertion failure, exceptions. *)

From Coq Require Export String Ascii.
From Coq Require Export Bool Arith NArith ZArith Lia List.
Export ListNotations.
#[global] Open Scope list_scope.
#[global] Close Scope string_scope.

(** A [char] is one byte.  A [string_view] (its contents) is a [str]. *)
Notation char := ascii.
Notation str := (list ascii).

(** Literals: [L "abc"] is the byte string abc. *)
Definition L (s : string) : str := list_ascii_of_string s.
Arguments L s%string.

(** [ch n] is the byte with value [n]. *)
Definition NUL : char := "000"%char.

(** Equality of byte strings, decidable. *)
Fixpoint str_eqb (a b : str) : bool :=
  match a, b with
  | [], [] => true
  | x :: a', y :: b' => Ascii.eqb x y && str_eqb a' b'
  | _, _ => false
  end.

(** Exceptions thrown by the library (include/boost/url/error.hpp). *)
Inductive exn := invalid_part | too_large | out_of_range | bad_alloc.

(** The outcome of running a piece of C++ code.
    - [Val a]   : returns [a]
    - [Exn e]   : throws
    - [Abort]   : a BOOST_ASSERT fails (only when assertions are enabled)
    - [UB]      : undefined behaviour (access outside a buffer, use after free,
                  use of an indeterminate byte, violated precondition of a
                  standard library function)
    - [Hang]    : the loop does not terminate (fuel exhausted) *)
Inductive outcome (A : Type) : Type :=
| Val (a : A) | Exn (e : exn) | Abort | UB | Hang.
Arguments Val {A} a. Arguments Exn {A} e.
Arguments Abort {A}. Arguments UB {A}. Arguments Hang {A}.

Definition omap {A B} (f : A -> B) (o : outcome A) : outcome B :=
  match o with
  | Val a => Val (f a) | Exn e => Exn e
  | Abort => Abort | UB => UB | Hang => Hang
  end.

Definition obind {A B} (o : outcome A) (f : A -> outcome B) : outcome B :=
  match o with
  | Val a => f a | Exn e => Exn e
  | Abort => Abort | UB => UB | Hang => Hang
  end.
Notation "'let!' x ':=' o 'in' k" := (obind o (fun x => k))
  (at level 200, x pattern, o at level 100, k at level 200, right associativity).

(** BOOST_ASSERT(c).  [dbg] says whether assertions are compiled in.  The
    asserted expression is itself an outcome, because evaluating it may be
    undefined (e.g. [back()] of an empty view); that also counts as [Abort]. *)
Definition oassert (dbg : bool) (c : bool) : outcome unit :=
  if dbg && negb c then Abort else Val tt.

(** State monad over [outcome].  The state is kept on every outcome, so that
    "nothing changed when it threw" is a meaningful statement. *)
Definition M (S A : Type) : Type := S -> outcome A * S.

Definition ret {S A} (a : A) : M S A := fun s => (Val a, s).
Definition bind {S A B} (m : M S A) (f : A -> M S B) : M S B :=
  fun s =>
    match m s with
    | (Val a, s') => f a s'
    | (Exn e, s') => (Exn e, s')
    | (Abort, s') => (Abort, s')
    | (UB, s') => (UB, s')
    | (Hang, s') => (Hang, s')
    end.
Definition lift {S A} (o : outcome A) : M S A := fun s => (o, s).
Definition throw {S A} (e : exn) : M S A := fun s => (Exn e, s).
Definition get_st {S} : M S S := fun s => (Val s, s).
Definition gets {S A} (f : S -> A) : M S A := fun s => (Val (f s), s).
Definition put_st {S} (s : S) : M S unit := fun _ => (Val tt, s).
Definition modify {S} (f : S -> S) : M S unit := fun s => (Val tt, f s).

Declare Scope monad_scope.
Delimit Scope monad_scope with monad.
Notation "x <- m ;; k" := (bind m (fun x => k))
  (at level 100, m at next level, right associativity) : monad_scope.
Notation "' p <- m ;; k" := (bind m (fun p => k))
  (at level 100, p pattern, m at next level, right associativity) : monad_scope.
Notation "m ;; k" := (bind m (fun _ => k))
  (at level 100, right associativity) : monad_scope.

(** Build configuration and outside world.
    - [dbg]       : are BOOST_ASSERTs compiled in?
    - [size_max]  : the value of [(std::size_t)(-1)]
    - [max_size]  : allocator_traits::max_size
    - [alloc_ok k n] : does the allocation number [k] (of this object), of [n]
                   bytes, succeed?  An arbitrary oracle: any failure pattern. *)
Record env := mk_env {
  dbg : bool;
  size_max : nat;
  max_size : nat;
  alloc_ok : nat -> nat -> bool
}.
