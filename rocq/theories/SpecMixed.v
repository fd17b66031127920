(** * SpecMixed: modifiers and segment edits together *)

From Verif Require Import Base ModelChar ModelParts ModelView ModelUrl SpecChar SpecGrammar SpecLink SpecView SpecStore SpecUrl SpecHistory SpecSegments.

(** [usable u a]: [editable] without the condition on the storage's own size,
    which matters only in debug builds. *)
Definition usable (u : url) (a : uri) : Prop := editable false u a.

(** [in_sync u]: the storage's own size is the size of the URL. *)
Definition in_sync (u : url) : Prop := st_size (u_st u) = usize u.

(** The one call that grows and then shrinks. *)
Definition grows_and_shrinks (o : op) (a : uri) : bool :=
  match o, uri_authority a with Set_password_part [_], None => true | _, _ => false end.

(** [sizes_after o a u u']: how the storage's own size follows. *)
Definition sizes_after (o : op) (a : uri) (u u' : url) : Prop :=
  if replaces o then in_sync u'
  else if grows_and_shrinks o a then st_size (u_st u') = usize u' + 2
  else (usize u < usize u' -> in_sync u') /\
       (usize u' <= usize u -> st_size (u_st u') = st_size (u_st u)).

(** [mixed d u u']: any finite sequence of modifiers and segment edits; every
    call has its own pattern of allocation failures.  Exceptions are caught; a
    sequence ends when an assertion fires, so no call in it has aborted.  As
    before, calls that damage the URL are excluded ([breaks]), calls that leave
    the counters wrong as well ([keeps_counts]), and edits name existing
    positions other than the first of a relative path ([in_range]). *)
Inductive mixed (d : bool) (u : url) : url -> Prop :=
| mixed_start : mixed d u u
| mixed_call E o u1 r u2 :
    mixed d u u1 -> keeps_counts o -> env_ok E -> dbg E = d -> arg_ok o ->
    (forall a, rep (part_texts a) u1 -> ~ breaks d o a) ->
    run E o u1 = (r, u2) -> mixed d u u2
| mixed_edit E e u1 r u2 :
    mixed d u u1 -> env_ok E -> dbg E = d ->
    (forall a, rep (part_texts a) u1 -> in_range e a) ->
    run_edit E e u1 = (r, u2) -> r <> Abort -> mixed d u u2.
