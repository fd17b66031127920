(** * SpecSegments: what editing segments must do

    Lists of segments, and the path a list of segments stands for.  Positions
    are numbers of segments; [position d u i] is the iterator reached from
    begin() by [i] increments. *)

From Verif Require Import Base ModelChar ModelParts ModelView ModelUrl SpecChar SpecGrammar SpecLink SpecView SpecStore SpecUrl SpecHistory.

(** ** List operations *)

Definition insert_nth {A} (i : nat) (x : A) (l : list A) : list A := firstn i l ++ x :: skipn i l.
Definition erase_range {A} (i j : nat) (l : list A) : list A := firstn i l ++ skipn j l.
Definition replace_nth {A} (i : nat) (x : A) (l : list A) : list A := firstn i l ++ x :: skipn (S i) l.

(** ** Paths *)

(** A path is absolute, empty or relative; the first two are written with a "/"
    before every segment, the last with a "/" between segments. *)
Definition rooted (p : str) : bool := match p with [] => true | c :: _ => Ascii.eqb c "/" end.
Definition absolute_path (ss : list str) : str := concat (map (cons "/"%char) ss).
Definition to_path (root : bool) (ss : list str) : str :=
  if root then absolute_path ss
  else match ss with [] => [] | s :: r => s ++ absolute_path r end.
(** [a] with other segments; the path stays rooted or relative. *)
Definition with_segments (ss : list str) (a : uri) : uri := with_path (to_path (rooted (uri_path a)) ss) a.
Definition the_segments (a : uri) : list str := segments_of (uri_path a).

(** ** The URLs that can be edited *)

(** [editable d u a]: [u] has components [a], its counters are right (C29), a
    zero byte follows the last character (C20), and in a debug build
    ([d = true]) the storage's own size agrees. *)
Record editable (d : bool) (u : url) (a : uri) : Prop := {
  ed_rep : rep (part_texts a) u;
  ed_counts : right_counts (view_of u) a;
  ed_terminated : terminated u;
  ed_sizes : d = true -> st_size (u_st u) = usize u
}.

Fixpoint position (d : bool) (u : url) (i : nat) : outcome seg_it :=
  match i with
  | O => seg_begin (view_of u) (seg_parse_base d (view_of u))
  | S i => let! p := position d u i in seg_incr d (view_of u) (seg_parse_base d (view_of u)) p
  end.

(** The iterator that a call returns must be constructed by looking at the text
    there; in a debug build this fires an assertion at the end of a path that is
    not followed by a query. *)
Definition at_end_without_query (a : uri) (i : nat) : Prop := i = length (the_segments a) /\ uri_query a = None.

(** [edits E u a need ss i m]: [m] is the result of an operation on [u] that
    needs room for [need] characters, changes the segments to [ss] and nothing
    else, and returns the iterator at position [i]. *)
Definition edits (E : env) (u : url) (a : uri) (need : nat) (ss : list str) (i : nat) (m : outcome seg_it * url) : Prop :=
  (fits E u need = true /\ exists u' p, m = (Val p, u') /\
     editable (dbg E) u' (with_segments ss a) /\ the_segments (with_segments ss a) = ss /\
     host (u_pt u') = host (u_pt u) /\ position (dbg E) u' i = Val p) \/
  (fits E u need = false /\ m = (Exn bad_alloc, u)).
(** The same, but the assertion fires at the very end. *)
Definition edits_and_aborts (E : env) (u : url) (a : uri) (need : nat) (ss : list str) (m : outcome seg_it * url) : Prop :=
  (fits E u need = true /\ exists u', m = (Abort, u') /\ editable (dbg E) u' (with_segments ss a)) \/
  (fits E u need = false /\ m = (Exn bad_alloc, u)).

(** ** Sequences of edits *)

Inductive edit :=
| Insert_encoded (i : nat) (s : str)
| Insert (i : nat) (s : str)
| Erase (i : nat)
| Erase_range (i j : nat)
| Replace_encoded (i : nat) (s : str)
| Replace (i : nat) (s : str).

Definition at_position (E : env) (i : nat) : U seg_it := fun u => (position (dbg E) u i, u).
Definition run_edit (E : env) (e : edit) : U seg_it :=
  match e with
  | Insert_encoded i s => bind (at_position E i) (fun p => seg_insert_encoded E p s)
  | Insert i s => bind (at_position E i) (fun p => seg_insert E p s)
  | Erase i => bind (at_position E i) (fun p => seg_erase E p)
  | Erase_range i j => bind (at_position E i) (fun p => bind (at_position E j) (fun q => seg_erase2 E p q))
  | Replace_encoded i s => bind (at_position E i) (fun p => seg_replace_encoded E p s)
  | Replace i s => bind (at_position E i) (fun p => seg_replace E p s)
  end.

(** The corresponding list operation. *)
Definition list_edit (e : edit) (ss : list str) : list str :=
  match e with
  | Insert_encoded i s => insert_nth i s ss
  | Insert i s => insert_nth i (canonical_encoding k_pchar s) ss
  | Erase i => erase_range i (S i) ss
  | Erase_range i j => erase_range i j ss
  | Replace_encoded i s => replace_nth i s ss
  | Replace i s => replace_nth i (canonical_encoding k_pchar s) ss
  end.
(** The position that is returned. *)
Definition returned (e : edit) : nat :=
  match e with
  | Insert_encoded i _ | Insert i _ | Replace_encoded i _ | Replace i _ => S i
  | Erase i | Erase_range i _ => i
  end.
(** The position of the edit, and the segments it removes. *)
Definition edit_at (e : edit) : nat :=
  match e with
  | Insert_encoded i _ | Insert i _ | Replace_encoded i _ | Replace i _ | Erase i | Erase_range i _ => i
  end.
Definition edit_to (e : edit) : nat :=
  match e with
  | Insert_encoded i _ | Insert i _ => i
  | Replace_encoded i _ | Replace i _ | Erase i => S i
  | Erase_range _ j => j
  end.
Definition text_valid (e : edit) : Prop :=
  match e with Insert_encoded _ s | Replace_encoded _ s => upper_text k_pchar s | _ => True end.
(** The room an edit needs. *)
Definition edit_need (e : edit) (u : url) (a : uri) : nat :=
  match e with
  | Insert_encoded _ s => usize u + (length s + 1)
  | Insert _ s => usize u + (length (canonical_encoding k_pchar s) + 1)
  | Erase _ | Erase_range _ _ => 0
  | Replace_encoded i s => st_size (u_st u) + length s - length (nth i (the_segments a) [])
  | Replace i s => st_size (u_st u) + length (canonical_encoding k_pchar s) - length (nth i (the_segments a) [])
  end.

(** The positions exist, and the first segment of a relative path is left alone. *)
Definition in_range (e : edit) (a : uri) : Prop :=
  edit_at e <= edit_to e <= length (the_segments a) /\ (rooted (uri_path a) = true \/ 0 < edit_at e).
(** The edit does nothing. *)
Definition idle (e : edit) : Prop := match e with Erase_range i j => i = j | _ => False end.
(** In a debug build, the edit reaches the end of a path without a query. *)
Definition asserts (d : bool) (e : edit) (a : uri) : Prop :=
  d = true /\ ~ idle e /\ at_end_without_query a (edit_to e).
(** What is left when the assertion fires: a replacement has only erased. *)
Definition until_assertion (e : edit) (ss : list str) : list str :=
  match e with
  | Replace_encoded i _ | Replace i _ => erase_range i (S i) ss
  | _ => list_edit e ss
  end.

(** [edit_history d u es u']: any finite sequence of such edits; exceptions are
    caught, and every edit has its own pattern of allocation failures.  [es] are
    the edits that returned. *)
Inductive edit_history (d : bool) (u : url) : list edit -> url -> Prop :=
| edit_start : edit_history d u [] u
| edit_next E e es u1 r u2 :
    edit_history d u es u1 -> env_ok E -> dbg E = d ->
    (forall a, rep (part_texts a) u1 -> in_range e a /\ ~ asserts d e a) ->
    run_edit E e u1 = (r, u2) ->
    edit_history d u (match r with Val _ => es ++ [e] | _ => es end) u2.
Definition list_edits (es : list edit) (ss : list str) : list str := fold_left (fun l e => list_edit e l) es ss.
