(** * SpecCost: what it means that a function takes linear time *)

From Verif Require Import Base.

(** [t] does what [f] does and counts: never more than [a] steps for each
    character of the text, and [b]. *)
Definition takes_linear_time {A} (f : str -> outcome A) (t : str -> outcome A * nat) (a b : nat) : Prop :=
  forall s, fst (t s) = f s /\ snd (t s) <= a * length s + b.

(** ... and not fewer than one for each character of a text it accepts. *)
Definition reads_everything {A} (t : str -> outcome A * nat) : Prop :=
  forall s x, fst (t s) = Val x -> length s <= snd (t s).
