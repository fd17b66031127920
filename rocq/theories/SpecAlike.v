(** * SpecAlike: two urls that look the same *)

From Verif Require Import Base ModelChar ModelParts ModelView ModelUrl SpecChar SpecGrammar SpecLink SpecView SpecStore SpecUrl SpecHistory SpecSegments SpecMixed.

(** [alike u1 u2]: the same text, offsets, counters and host type.  The
    storages may differ: capacity, left-over bytes, numbers of allocations. *)
Definition alike (u1 u2 : url) : Prop :=
  u_pt u1 = u_pt u2 /\ encoded_url (view_of u1) = encoded_url (view_of u2).

Definition out_of_memory {A} (r : outcome A) : Prop := exists e, no_room e /\ r = Exn e.

(** [same_calls d u1 u2 v1 v2]: the same calls of modifiers are made on [u1] and
    [u2], which become [v1] and [v2]; exceptions are caught, and no call runs out
    of memory.  Every call has its own environment. *)
Inductive same_calls (d : bool) (u1 u2 : url) : url -> url -> Prop :=
| same_start : same_calls d u1 u2 u1 u2
| same_call E1 E2 o v1 v2 r1 r2 w1 w2 :
    same_calls d u1 u2 v1 v2 -> env_ok E1 -> env_ok E2 -> dbg E1 = d -> dbg E2 = d -> arg_ok o ->
    (forall a, rep (part_texts a) v1 -> ~ breaks d o a) ->
    run E1 o v1 = (r1, w1) -> run E2 o v2 = (r2, w2) -> ~ out_of_memory r1 -> ~ out_of_memory r2 ->
    same_calls d u1 u2 w1 w2.

(** The same with segment edits, none of which stops with an assertion. *)
Inductive same_work (d : bool) (u1 u2 : url) : url -> url -> Prop :=
| work_start : same_work d u1 u2 u1 u2
| work_call E1 E2 o v1 v2 r1 r2 w1 w2 :
    same_work d u1 u2 v1 v2 -> env_ok E1 -> env_ok E2 -> dbg E1 = d -> dbg E2 = d -> arg_ok o -> keeps_counts o ->
    (forall a, rep (part_texts a) v1 -> ~ breaks d o a) ->
    run E1 o v1 = (r1, w1) -> run E2 o v2 = (r2, w2) -> ~ out_of_memory r1 -> ~ out_of_memory r2 ->
    same_work d u1 u2 w1 w2
| work_edit E1 E2 e v1 v2 r1 r2 w1 w2 :
    same_work d u1 u2 v1 v2 -> env_ok E1 -> env_ok E2 -> dbg E1 = d -> dbg E2 = d ->
    (forall a, rep (part_texts a) v1 -> in_range e a) ->
    run_edit E1 e v1 = (r1, w1) -> run_edit E2 e v2 = (r2, w2) -> r1 <> Abort -> r2 <> Abort ->
    ~ out_of_memory r1 -> ~ out_of_memory r2 ->
    same_work d u1 u2 w1 w2.
