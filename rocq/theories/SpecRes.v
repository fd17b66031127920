(** * SpecRes: exceptions from functions marked noexcept, allocations, capacity *)

From Verif Require Import Base ModelChar ModelParts ModelView ModelUrl SpecChar SpecGrammar SpecLink SpecView SpecStore SpecUrl SpecHistory SpecSegments.

(** ** Exceptions *)

Definition throws {A} (o : outcome A) : Prop := exists e, o = Exn e.

(** The observers that are declared noexcept (url_view.hpp, url_base.hpp), and
    the functions of their ranges and iterators. *)
Record observers_do_not_throw (d : bool) (v : view) : Prop := {
  nt_origin : ~ throws (encoded_origin v);
  nt_scheme : ~ throws (scheme d v);
  nt_authority : ~ throws (encoded_authority d v);
  nt_has_userinfo_view : ~ throws (has_userinfo_view d v);
  nt_has_userinfo_base : ~ throws (has_userinfo_base d v);
  nt_userinfo_view : ~ throws (encoded_userinfo_view d v);
  nt_userinfo_base : ~ throws (encoded_userinfo_base d v);
  nt_userinfo_part : ~ throws (userinfo_part d v);
  nt_user : ~ throws (encoded_user d v);
  nt_password_view : ~ throws (encoded_password_view d v);
  nt_password_base : ~ throws (encoded_password_base d v);
  nt_password_part : ~ throws (password_part d v);
  nt_host_and_port : ~ throws (encoded_host_and_port v);
  nt_host : ~ throws (encoded_host v);
  nt_port : ~ throws (port d v);
  nt_port_part : ~ throws (port_part d v);
  nt_path : ~ throws (encoded_path v);
  nt_query : ~ throws (encoded_query d v);
  nt_query_part : ~ throws (query_part d v);
  nt_fragment : ~ throws (encoded_fragment d v);
  nt_fragment_part : ~ throws (fragment_part d v)
}.
Record segments_do_not_throw (d : bool) (v : view) (parse : nat -> outcome seg_it) : Prop := {
  nt_seg_iter : forall e, ~ throws (seg_iter v parse e);
  nt_seg_deref : forall i, ~ throws (seg_deref v i);
  nt_seg_incr : forall i, ~ throws (seg_incr d v parse i);
  nt_seg_decr : forall i, ~ throws (seg_decr d v parse i);
  nt_seg_eq : forall i j, ~ throws (seg_eq d i j)
}.
Record params_do_not_throw (d : bool) (v : view) : Prop := {
  nt_par_iter : forall e, ~ throws (par_iter d v e);
  nt_par_deref : forall i, ~ throws (par_deref d v i);
  nt_par_incr : forall i, ~ throws (par_incr d v i);
  nt_par_decr : forall i, ~ throws (par_decr d v i);
  nt_par_eq : forall i j, ~ throws (par_eq d i j);
  nt_contains : forall fuel key, ~ throws (contains d v fuel key);
  nt_count : forall fuel key, ~ throws (count d v fuel key);
  nt_find : forall fuel key, ~ throws (find d v fuel key)
}.

(** ** Allocations *)

(** [any_calls u]: [u] results from a default-constructed URL by any sequence of
    modifiers and segment edits with any arguments and any outcomes, each with
    its own allocation failures. *)
Inductive any_calls : url -> Prop :=
| any_start : any_calls url0
| any_op E o u : any_calls u -> env_ok E -> any_calls (snd (run E o u))
| any_edit E e u : any_calls u -> env_ok E -> any_calls (snd (run_edit E e u)).

(** [short_history d n u]: modifiers only, none of them damaging, and the URL
    was never longer than [n]. *)
Inductive short_history (d : bool) (n : nat) : url -> Prop :=
| short_start : short_history d n url0
| short_call E o u r u' :
    short_history d n u -> env_ok E -> dbg E = d -> arg_ok o ->
    (forall a, rep (part_texts a) u -> ~ breaks d o a) ->
    run E o u = (r, u') -> usize u' <= n -> short_history d n u'.

(** ** Values that stay *)

(** [leaves o o']: [o'] names no component that [o] names. *)
Definition leaves (o o' : op) : bool :=
  negb (touches_scheme o && touches_scheme o' || touches_user o && touches_user o' || touches_password o && touches_password o' ||
        touches_host o && touches_host o' || touches_port o && touches_port o' || touches_path o && touches_path o' ||
        touches_query o && touches_query o' || touches_fragment o && touches_fragment o').
Definition elsewhere (o o' : op) : Prop := leaves o o' = true /\ clean_origin o'.
