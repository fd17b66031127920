(** * SpecIter: what iterating and looking up must do

    Lists of segments and parameters; nothing here depends on how iterators
    are represented. *)

From Verif Require Import Base ModelChar ModelParts ModelView ModelUrl SpecChar SpecGrammar SpecLink SpecView SpecStore SpecUrl SpecHistory.

(** [shown v a]: [v] is a url_view constructed from a string with components
    [a], or the url_view base of a url with components [a] whose counters are
    right (C29 says when they are). *)
Inductive shown (v : view) (a : uri) : Prop :=
| shown_view d : wf accepted a -> make_url_view d (recompose a) = Val v -> shown v a
| shown_url u : rep (part_texts a) u -> wf_components a -> right_counts (view_of u) a -> v = view_of u -> shown v a.

(** The parameters of a URL as the library delimits them ([lib_params]);
    a missing value reads as "". *)
Definition raw_params (u : uri) : list (str * option str) :=
  match uri_query u with Some q => lib_params q | None => [] end.
Definition plain (p : str * option str) : str * str := (fst p, same (snd p)).
Definition params_of (u : uri) : list (str * str) := map plain (raw_params u).

(** The last parameter is written with "=". *)
Definition ends_with_value (ps : list (str * option str)) : Prop :=
  exists front k x, ps = front ++ [(k, Some x)].
(** The library's iterator works: there is no fragment or the last parameter
    has a value. *)
Definition iterable (u : uri) : Prop :=
  uri_query u = None \/ uri_fragment u = None \/ ends_with_value (raw_params u).

(** Every parameter but possibly the last is written with "=". *)
Definition all_but_last_valued (ps : list (str * option str)) : Prop :=
  forall front p rest, ps = front ++ p :: rest -> rest <> [] -> snd p <> None.

(** Percent-decoded parameters. *)
Definition decoded_params (ps ds : list (str * str)) : Prop :=
  Forall2 (fun p e => decodes (fst p) (fst e) /\ decodes (snd p) (snd e)) ps ds.
(** The value of the first parameter with the given decoded key. *)
Fixpoint lookup (key : str) (ds : list (str * str)) : option str :=
  match ds with
  | [] => None
  | (k, x) :: r => if str_eqb k key then Some x else lookup key r
  end.
(** The number of parameters with that key. *)
Definition occurrences (key : str) (ds : list (str * str)) : nat :=
  length (filter (fun e => str_eqb (fst e) key) ds).

(** [positions b e incr deref eq l pos]: [pos 0], [pos 1], ... are the iterators
    of a range with elements [l]: [pos 0] is begin(), [pos (length l)] is end(),
    ++ moves one on, * gives the element, and == compares positions. *)
Record positions {It El} (b e : outcome It) (incr : It -> outcome It) (deref : It -> outcome El)
  (eq : It -> It -> outcome bool) (l : list El) (pos : nat -> It) : Prop := {
  ps_begin : b = Val (pos 0);
  ps_end : e = Val (pos (length l));
  ps_incr : forall i, i < length l -> incr (pos i) = Val (pos (S i));
  ps_deref : forall i x, nth_error l i = Some x -> deref (pos i) = Val x;
  ps_eq : forall i j, i <= length l -> j <= length l -> eq (pos i) (pos j) = Val (i =? j)
}.
(** A bidirectional range: -- undoes ++ everywhere. *)
Definition bidirectional {It El} (b e : outcome It) (incr decr : It -> outcome It) (deref : It -> outcome El)
  (eq : It -> It -> outcome bool) (l : list El) : Prop :=
  exists pos, positions b e incr deref eq l pos /\ forall i, i < length l -> decr (pos (S i)) = Val (pos i).
