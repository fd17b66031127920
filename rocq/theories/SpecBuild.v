(** * SpecBuild: builds with and without assertions *)

From Verif Require Import Base ModelChar ModelParts ModelView ModelUrl SpecChar SpecGrammar SpecLink SpecView SpecStore SpecUrl SpecSegments.

(** The same environment with or without assertions. *)
Definition build (d : bool) (E : env) : env := mk_env d (size_max E) (max_size E) (alloc_ok E).

(** The call returns or throws: no assertion fails, nothing undefined happens. *)
Definition ends {A} (o : outcome A) : bool := match o with Val _ | Exn _ => true | _ => false end.
(** If the first call ends, the second does the same. *)
Definition follows {A} (debug release : outcome A) : Prop := ends debug = true -> release = debug.

(** The observers that contain assertions. *)
Record observers_follow (v : view) : Prop := {
  fo_scheme : follows (scheme true v) (scheme false v);
  fo_authority : follows (encoded_authority true v) (encoded_authority false v);
  fo_has_userinfo_view : follows (has_userinfo_view true v) (has_userinfo_view false v);
  fo_has_userinfo_base : follows (has_userinfo_base true v) (has_userinfo_base false v);
  fo_userinfo_view : follows (encoded_userinfo_view true v) (encoded_userinfo_view false v);
  fo_userinfo_base : follows (encoded_userinfo_base true v) (encoded_userinfo_base false v);
  fo_userinfo_part : follows (userinfo_part true v) (userinfo_part false v);
  fo_user : follows (encoded_user true v) (encoded_user false v) /\ follows (user true v) (user false v);
  fo_password_view : follows (encoded_password_view true v) (encoded_password_view false v) /\ follows (password_view true v) (password_view false v);
  fo_password_base : follows (encoded_password_base true v) (encoded_password_base false v) /\ follows (password_base true v) (password_base false v);
  fo_password_part : follows (password_part true v) (password_part false v);
  fo_port : follows (port true v) (port false v);
  fo_port_part : follows (port_part true v) (port_part false v);
  fo_query : follows (encoded_query true v) (encoded_query false v) /\ follows (query true v) (query false v);
  fo_query_part : follows (query_part true v) (query_part false v);
  fo_fragment : follows (encoded_fragment true v) (encoded_fragment false v) /\ follows (fragment true v) (fragment false v);
  fo_fragment_part : follows (fragment_part true v) (fragment_part false v)
}.
(** Ranges and iterators of segments ([parse true], [parse false]: the function
    that finds the end of a segment) and of parameters. *)
Record segments_follow (v : view) (parse : bool -> nat -> outcome seg_it) : Prop := {
  fo_seg_iter : forall e, follows (seg_iter v (parse true) e) (seg_iter v (parse false) e);
  fo_seg_incr : forall i, follows (seg_incr true v (parse true) i) (seg_incr false v (parse false) i);
  fo_seg_decr : forall i, follows (seg_decr true v (parse true) i) (seg_decr false v (parse false) i);
  fo_seg_eq : forall i j, follows (seg_eq true i j) (seg_eq false i j);
  fo_seg_all : forall n, follows (seg_all true v (parse true) n) (seg_all false v (parse false) n)
}.
Record params_follow (v : view) : Prop := {
  fo_par_iter : forall e, follows (par_iter true v e) (par_iter false v e);
  fo_par_deref : forall i, follows (par_deref true v i) (par_deref false v i);
  fo_par_incr : forall i, follows (par_incr true v i) (par_incr false v i);
  fo_par_decr : forall i, follows (par_decr true v i) (par_decr false v i);
  fo_par_eq : forall i j, follows (par_eq true i j) (par_eq false i j);
  fo_par_all : forall n, follows (par_all true v n) (par_all false v n);
  fo_contains : forall n k, follows (contains true v n k) (contains false v n k);
  fo_count : forall n k, follows (count true v n k) (count false v n k);
  fo_find : forall n k, follows (find true v n k) (find false v n k);
  fo_index : forall n k, follows (index true v n k) (index false v n k);
  fo_at : forall n k, follows (at_ true v n k) (at_ false v n k)
}.

(** A program: modifiers and segment edits, each in its own environment;
    exceptions are caught.  The results, and the url at the end; [None] if a call
    does not end. *)
Inductive action := Modify (o : op) | Edit (e : edit).
Definition act (E : env) (x : action) (u : url) : outcome (option seg_it) * url :=
  match x with
  | Modify o => let '(r, u') := run E o u in (omap (fun _ => None) r, u')
  | Edit e => let '(r, u') := run_edit E e u in (omap Some r, u')
  end.
Fixpoint acts (d : bool) (l : list (env * action)) (u : url) : option (list (outcome (option seg_it)) * url) :=
  match l with
  | [] => Some ([], u)
  | (E, x) :: l' =>
      let '(r, u') := act (build d E) x u in
      if ends r then match acts d l' u' with Some (rs, w) => Some (r :: rs, w) | None => None end else None
  end.
