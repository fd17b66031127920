(** * SpecInt: how much an edit counts *)

From Verif Require Import Base ModelChar ModelParts ModelView ModelUrl SpecChar SpecGrammar SpecLink SpecView SpecStore SpecUrl SpecHistory SpecSegments.

(** The number of segments an edit removes. *)
Definition removed (e : edit) : nat := edit_to e - edit_at e.

(** A URL with [n] empty segments: "//h" followed by [n] times "/", and "?". *)
Definition many (n : nat) : uri := mk_uri None (Some (mk_authority None (L "h") None)) (repeat "/"%char n) (Some []) None.

(** The largest value of an int of 32 bits. *)
Definition int_max : nat := N.to_nat (2 ^ 31 - 1).
