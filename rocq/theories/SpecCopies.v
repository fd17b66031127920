(** * SpecCopies: what programs do with pools *)

From Verif Require Import Base ModelMisc SpecMisc ModelCopies.

(** A program creates pools at given addresses, copies them, takes characters
    from them and gives any back.  Objects are numbered in the order of their
    creation. *)
Inductive pact :=
| Make (buf size : N)
| Copy (i : nat) (buf : N)
| Take (i : nat) (n : N)
| Give_back (i : nat) (ptr n : N).

(** What exists: the objects, and the blocks given out so far (latest first),
    each with the address of the buffer the pool pointed to; also those that were
    given back. *)
Record world := mk_world { objects : list object; given : list (N * block) }.
Definition nothing : world := mk_world [] [].

Definition put_at (i : nat) (o : object) (l : list object) : list object := firstn i l ++ o :: skipn (S i) l.
Definition act (W : N) (w : world) (a : pact) : world :=
  match a with
  | Make buf size => mk_world (objects w ++ [make buf size]) (given w)
  | Copy i buf =>
      match nth_error (objects w) i with
      | Some o => mk_world (objects w ++ [copy_of buf o]) (given w)
      | None => w
      end
  | Take i n =>
      match nth_error (objects w) i with
      | Some o =>
          match take_chars W n o with
          | (Val u, o') => mk_world (put_at i o' (objects w)) ((p_base (o_pool o), (u, n)) :: given w)
          | (_, o') => mk_world (put_at i o' (objects w)) (given w)
          end
      | None => w
      end
  | Give_back i ptr n =>
      match nth_error (objects w) i with
      | Some o => mk_world (put_at i (give_back_chars W ptr n o) (objects w)) (given w)
      | None => w
      end
  end.
Definition run_acts (W : N) (l : list pact) : world := fold_left (act W) l nothing.

(** The arrays of the objects are somewhere in the address space and do not
    overlap; sizes are numbers of the machine. *)
Definition array_of (o : object) : block := (o_buf o, p_capacity (o_pool o)).
Definition placed (W : N) (l : list pact) : Prop :=
  ForallOrdPairs disjoint (map array_of (objects (run_acts W l))) /\
  Forall (fun a => match a with
                   | Make buf size => (0 < buf /\ 0 < size /\ buf + size < W)%N
                   | Take _ n => (n < W)%N
                   | _ => True
                   end) l.

(** No pool is copied. *)
Definition no_copies (l : list pact) : Prop :=
  Forall (fun a => match a with Copy _ _ => False | _ => True end) l.
