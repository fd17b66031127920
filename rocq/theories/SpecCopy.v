(** * SpecCopy: copying a URL through accessors and modifiers

    The programs a caller writes to build a url from the components of another
    URL, and the components that result. *)

From Verif Require Import Base ModelChar ModelParts ModelView ModelUrl SpecChar SpecGrammar SpecView SpecStore SpecUrl.
Local Open Scope monad_scope.

(** u.set_scheme(v.scheme()); u.set_encoded_authority(v.encoded_authority());
    u.set_encoded_path(v.encoded_path()); u.set_query_part(v.query_part());
    u.set_fragment_part(v.fragment_part()); *)
Definition copy (E : env) (v : view) : U unit :=
  s <- lift (scheme (dbg E) v) ;; run E (Set_scheme s) ;;
  s <- lift (encoded_authority (dbg E) v) ;; run E (Set_encoded_authority s) ;;
  s <- lift (encoded_path v) ;; run E (Set_encoded_path s) ;;
  s <- lift (query_part (dbg E) v) ;; run E (Set_query_part s) ;;
  s <- lift (fragment_part (dbg E) v) ;; run E (Set_fragment_part s).

(** The same with path before authority. *)
Definition copy_path_first (E : env) (v : view) : U unit :=
  s <- lift (scheme (dbg E) v) ;; run E (Set_scheme s) ;;
  s <- lift (encoded_path v) ;; run E (Set_encoded_path s) ;;
  s <- lift (encoded_authority (dbg E) v) ;; run E (Set_encoded_authority s) ;;
  s <- lift (query_part (dbg E) v) ;; run E (Set_query_part s) ;;
  s <- lift (fragment_part (dbg E) v) ;; run E (Set_fragment_part s).

(** Piece by piece: scheme, user, password, host, port, path, query, fragment. *)
Definition copy_pieces (E : env) (v : view) : U unit :=
  s <- lift (scheme (dbg E) v) ;; run E (Set_scheme s) ;;
  s <- lift (encoded_user (dbg E) v) ;; run E (Set_encoded_user s) ;;
  s <- lift (encoded_password_view (dbg E) v) ;; run E (Set_encoded_password s) ;;
  s <- lift (encoded_host v) ;; run E (Set_encoded_host s) ;;
  s <- lift (port (dbg E) v) ;; run E (Set_port s) ;;
  s <- lift (encoded_path v) ;; run E (Set_encoded_path s) ;;
  s <- lift (encoded_query (dbg E) v) ;; run E (Set_encoded_query s) ;;
  s <- lift (encoded_fragment (dbg E) v) ;; run E (Set_encoded_fragment s).

(** An authority of which nothing is there: "//" alone. *)
Definition no_authority : authority := mk_authority None [] None.
Definition drop_empty_authority (a : uri) : uri :=
  match uri_authority a with
  | Some (mk_authority None [] None) => with_authority None a
  | _ => a
  end.

(** [some s]: absent if empty. *)
Definition some (s : str) : option str := match s with [] => None | _ => Some s end.
Definition drop_empty (x : option str) : option str := some (same x).
(** Without empty passwords, ports, users, queries, ... *)
Definition drop_empty_pieces (a : uri) : uri :=
  let ui := match drop_empty (the_password a) with
            | Some p => Some (the_user a ++ L ":" ++ p)
            | None => some (the_user a)
            end in
  drop_empty_authority
    (mk_uri (uri_scheme a) (Some (mk_authority ui (the_host a) (drop_empty (the_port a))))
       (uri_path a) (drop_empty (uri_query a)) (drop_empty (uri_fragment a))).

(** A path that can be read as an authority where there is none. *)
Definition begins_with_slashes (s : str) : Prop := exists r, s = L "//" ++ r.
Definition begins_with_colon (s : str) : Prop := exists r, s = L ":" ++ r.

(** Room for [n] characters without reallocation. *)
Definition reserved (E : env) (u : url) (n : nat) : Prop := n <= st_cap (u_st u) /\ n <= size_max E.
(** [unless_full E n m u Q]: the program [m] called on [u] ends as [Q] says, or
    runs out of memory, which does not happen if [n] characters are reserved. *)
Definition unless_full (E : env) (n : nat) (m : U unit) (u : url) (Q : outcome unit -> url -> Prop) : Prop :=
  (exists r u', m u = (r, u') /\ Q r u') \/
  (~ reserved E u n /\ exists e u', no_room e /\ m u = (Exn e, u')).
(** [builds E a]: it returns and all accessors show the components [a]. *)
Definition builds (E : env) (a : uri) (r : outcome unit) (u' : url) : Prop :=
  r = Val tt /\ rep (part_texts a) u' /\ shows (dbg E) (view_of u') a.
(** [rejects]: it throws invalid_part. *)
Definition rejects (r : outcome unit) (u' : url) : Prop := r = Exn invalid_part.
