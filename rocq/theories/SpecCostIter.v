(** * SpecCostIter: how long iterating takes *)

From Verif Require Import Base ModelView ModelCostIter SpecGrammar.

(** [k], a counted computation, gives [r] in at least [least] and at most [most]
    steps. *)
Definition takes {A} (k : K A) (r : outcome A) (least most : nat) : Prop :=
  fst k = r /\ least <= snd k <= most.

(** The length of the query with its "?". *)
Definition query_length (a : uri) : nat := match uri_query a with Some q => S (length q) | None => 0 end.
