(** * SpecPoolEdit: programs with modifiers and segment edits in one pool *)

From Verif Require Import Base ModelChar ModelParts ModelView ModelUrl ModelMisc ModelPool SpecChar SpecGrammar SpecLink SpecView SpecStore SpecUrl SpecHistory
  SpecSegments SpecMixed SpecMisc SpecPool.

(** A modifier, or an edit of the segments (whose iterator is dropped). *)
Inductive action := Modify (o : op) | Edit (e : edit).
Definition perform (E : env) (c : action) (u : url) : outcome unit * url :=
  match c with
  | Modify o => run E o u
  | Edit e => (omap (fun _ => tt) (fst (run_edit E e u)), snd (run_edit E e u))
  end.

(** As before: no damaging modifiers; edits on urls whose counters are right and
    that end with a zero byte ([usable]), at existing positions other than the
    first of a relative path. *)
Definition allowed (d : bool) (c : action) (u : url) : Prop :=
  match c with
  | Modify o => arg_ok o /\ forall a, rep (part_texts a) u -> ~ breaks d o a
  | Edit e => exists a, usable u a /\ in_range e a
  end.

(** [edit_program W largest d ok w w']: any finite sequence of such actions on
    any of the urls; exceptions are caught, a sequence ends when an assertion
    fires.  Url number [i] satisfies [ok i] after every action on it. *)
Inductive edit_program (W : N) (largest : nat) (d : bool) (ok : nat -> url -> Prop) (w0 : world) : world -> Prop :=
| edit_program_start : edit_program W largest d ok w0 w0
| edit_program_next w i x c r w' :
    edit_program W largest d ok w0 w -> nth_error (w_urls w) i = Some x -> allowed d c (pl_url x) ->
    call_on W largest (fun E => perform E c) d i w = (r, w') -> r <> Abort ->
    (forall x', nth_error (w_urls w') i = Some x' -> ok i (pl_url x')) ->
    edit_program W largest d ok w0 w'.

(** What the action makes of the components [a] (a relation: modifiers may have
    no result). *)
Definition result (c : action) (a a' : uri) : Prop :=
  match c with
  | Modify o => step o a a'
  | Edit e => text_valid e /\ a' = with_segments (list_edit e (the_segments a)) a
  end.
(** The action does not abort or damage the url [u] with components [a]. *)
Definition works (d : bool) (c : action) (a : uri) (u : url) : Prop :=
  match c with
  | Modify o => arg_ok o /\ ~ misbehaves d o a
  | Edit e => usable u a /\ in_range e a /\ (d = true -> in_sync u) /\ ~ asserts d e a
  end.

(** Enough memory for urls that are never longer than [ns]. *)
Definition enough_to_edit (ns : list nat) : nat := fold_right (fun n s => 9 * n + 7 + s) 0 ns.
