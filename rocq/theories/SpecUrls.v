(** * SpecUrls: calls with iterators of any url *)

From Verif Require Import Base ModelChar ModelParts ModelView ModelUrl ModelUrls SpecChar SpecGrammar SpecLink SpecView SpecStore SpecUrl SpecHistory SpecIter SpecSegments SpecHeld.

(** A call of a function of url.segments(), with iterators. *)
Inductive seg_call (I : Type) :=
| CInsert_encoded (p : I) (s : str)
| CInsert (p : I) (s : str)
| CErase (p : I)
| CErase_range (p q : I)
| CReplace_encoded (p : I) (s : str)
| CReplace (p : I) (s : str).
Arguments CInsert_encoded {I}. Arguments CInsert {I}. Arguments CErase {I}.
Arguments CErase_range {I}. Arguments CReplace_encoded {I}. Arguments CReplace {I}.

(** The call on the url at [x] ... *)
Definition wcall (E : env) (x : nat) (c : seg_call iter) : W iter :=
  match c with
  | CInsert_encoded p s => winsert_encoded E x p s
  | CInsert p s => winsert E x p s
  | CErase p => werase E x p
  | CErase_range p q => werase2 E x p q
  | CReplace_encoded p s => wreplace_encoded E x p s
  | CReplace p s => wreplace E x p s
  end.
(** ... and on a single url, as in the rest of the development. *)
Definition scall (E : env) (c : seg_call seg_it) : U seg_it :=
  match c with
  | CInsert_encoded p s => seg_insert_encoded E p s
  | CInsert p s => seg_insert E p s
  | CErase p => seg_erase E p
  | CErase_range p q => seg_erase2 E p q
  | CReplace_encoded p s => seg_replace_encoded E p s
  | CReplace p s => seg_replace E p s
  end.

Definition call_map {I J} (f : I -> J) (c : seg_call I) : seg_call J :=
  match c with
  | CInsert_encoded p s => CInsert_encoded (f p) s
  | CInsert p s => CInsert (f p) s
  | CErase p => CErase (f p)
  | CErase_range p q => CErase_range (f p) (f q)
  | CReplace_encoded p s => CReplace_encoded (f p) s
  | CReplace p s => CReplace (f p) s
  end.
Definition iters {I} (c : seg_call I) : list I :=
  match c with
  | CInsert_encoded p _ | CInsert p _ | CErase p | CReplace_encoded p _ | CReplace p _ => [p]
  | CErase_range p q => [p; q]
  end.
(** The edit [e] with the iterators for its positions. *)
Definition with_positions {I} (pos : nat -> I) (e : edit) : seg_call I :=
  match e with
  | Insert_encoded i s => CInsert_encoded (pos i) s
  | Insert i s => CInsert (pos i) s
  | Erase i => CErase (pos i)
  | Erase_range i j => CErase_range (pos i) (pos j)
  | Replace_encoded i s => CReplace_encoded (pos i) s
  | Replace i s => CReplace (pos i) s
  end.

(** The iterator at position [i] of the url at [y]. *)
Definition points (d : bool) (h : urls) (y i : nat) (p : iter) : Prop :=
  it_v p = Some y /\ position d (h y) i = Val (it_at p).
(** The iterators of [c] that a call advances are at segments of their url. *)
Definition advances (d : bool) (h : urls) (c : seg_call iter) : Prop :=
  match c with
  | CErase p | CReplace_encoded p _ | CReplace p _ =>
      exists y i b, points d h y i p /\ editable d (h y) b /\ i < length (the_segments b)
  | _ => True
  end.

(** What a call checks before it looks at the pointers: the text, and room for a
    replacement. *)
Definition call_text_valid {I} (c : seg_call I) : Prop :=
  match c with CInsert_encoded _ s | CReplace_encoded _ s => upper_text k_pchar s | _ => True end.
Definition replaces_with {I} (c : seg_call I) : option (I * nat) :=
  match c with
  | CReplace_encoded p s => Some (p, length s)
  | CReplace p s => Some (p, length (canonical_encoding k_pchar s))
  | _ => None
  end.
Definition has_room (E : env) (u : url) (c : seg_call iter) : bool :=
  match replaces_with c with
  | Some (p, n) => fits E u (st_size (u_st u) + (n + 1) - si_n (it_at p))
  | None => true
  end.
(** The outcome of a call that is not carried out. *)
Definition refusal (E : env) (u : url) (c : seg_call iter) (r : outcome iter) : Prop :=
  (~ call_text_valid c -> r = Exn invalid_part) /\
  (call_text_valid c -> has_room E u c = false -> r = Exn bad_alloc) /\
  (call_text_valid c -> has_room E u c = true -> r = Abort).

(** The iterator at parameter [j] of the url at [y]. *)
Definition ppoints (d : bool) (h : urls) (y j : nat) (p : piter) : Prop :=
  pi_v p = Some y /\ param_position d (view_of (h y)) j = Val (pi_at p).
