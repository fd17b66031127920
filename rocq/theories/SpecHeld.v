(** * SpecHeld: iterators that are kept while the url changes

    A segment iterator of a url is a pair of numbers, a parameter iterator is
    three numbers.  The specification says,
    with the components of the URL only, which numbers they must be. *)

From Verif Require Import Base ModelChar ModelParts ModelView ModelUrl SpecChar SpecGrammar SpecView SpecStore SpecUrl SpecHistory SpecIter SpecSegments.

(** The text in front of the path: scheme and authority. *)
Definition front (a : uri) : str :=
  recompose (mk_uri (uri_scheme a) (uri_authority a) [] None None).

(** Where segment [j] begins, counted in characters from the beginning of the
    URL, with the "/" before it; where the path ends if there is no segment [j]. *)
Definition starts (a : uri) (j : nat) : nat :=
  length (front a) + length (to_path (rooted (uri_path a)) (firstn j (the_segments a))).

(** Segment [j] occupies the same characters in two URLs. *)
Definition same_place (j : nat) (a a' : uri) : Prop :=
  starts a' j = starts a j /\ starts a' (S j) = starts a (S j).

(** [u] has components [a], and its counters are right (C29). *)
Definition counted (u : url) (a : uri) : Prop := rep (part_texts a) u /\ right_counts (view_of u) a.

(** What an iterator shows of the text it covers. *)
Definition without_slash (s : str) : str :=
  match s with c :: r => if Ascii.eqb c "/" then r else s | [] => [] end.

(** ** Parameters *)

(** The iterator of parameter [j], reached from begin() by [j] increments. *)
Fixpoint param_position (d : bool) (v : view) (j : nat) : outcome par_it :=
  match j with
  | 0 => par_begin d v
  | S k => let! p := param_position d v k in par_incr d v p
  end.
(** The text in front of the query: scheme, authority and path. *)
Definition front_and_path (a : uri) : str := front a ++ uri_path a.
