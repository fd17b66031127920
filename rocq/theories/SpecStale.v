(** * SpecStale: iterating and editing with wrong counters

    A url keeps the numbers of its segments and parameters in two counters, which
    most modifiers do not update (C29, C66).  The specification says what can be
    seen and done when they are wrong. *)

From Verif Require Import Base ModelChar ModelParts ModelView ModelUrl SpecChar SpecGrammar SpecLink SpecView SpecStore SpecUrl SpecHistory SpecIter SpecSegments SpecHeld.

(** What is listed: nothing if the counter is zero, otherwise everything; the
    counter does not matter any further. *)
Definition listed {A} (counter : nat) (l : list A) : list A :=
  match counter with O => [] | S _ => l end.

(** Is there a range to begin with?  (Otherwise begin() looks at the text behind
    the URL, which an assertion notices.) *)
Definition no_segments_but_counted (u : url) (a : uri) : Prop :=
  nseg (u_pt u) <> 0 /\ uri_path a = [] /\ uri_query a = None.
Definition no_query_but_counted (u : url) (a : uri) : Prop :=
  nparam (u_pt u) <> 0 /\ uri_query a = None.

(** The url [u], but with its counter of segments wrong by [x], modulo the number
    of values of std::size_t. *)
Definition with_count (k : nat) (u : url) : url := mk_url (u_st u) (set_nseg (u_pt u) k) (u_s u).
Definition off_by (E : env) (x : nat) (u : url) : url :=
  with_count ((nseg (u_pt u) + x) mod S (size_max E)) u.

(** The iterator of segment [j] of a URL (C99), which does not depend on the counter. *)
Definition place_of (a : uri) (j : nat) : seg_it := mk_seg_it (starts a j) (starts a (S j) - starts a j).
(** It is reached from end() by [k] decrements. *)
Fixpoint from_end (d : bool) (v : view) (k : nat) : outcome seg_it :=
  match k with
  | O => seg_end v (seg_parse_base d v)
  | S k => let! p := from_end d v k in seg_decr d v (seg_parse_base d v) p
  end.

(** The number of segments an edit removes. *)
Definition removes (e : edit) : nat := edit_to e - edit_at e.
