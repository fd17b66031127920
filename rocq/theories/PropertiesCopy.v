(** * PropertiesCopy: building a URL from the components of another

    [copy E v], [copy_pieces E v], [copy_path_first E v] are the programs that
    read the components of [v] with the accessors and store them with the
    modifiers; [unless_full E n m u Q]: [m] on [u] ends as [Q] says, or runs out
    of memory, but not if [n] characters are reserved (SpecCopy.v). *)

From Verif Require Import Base ModelChar ModelParts ModelView ModelUrl SpecChar SpecGrammar SpecView SpecStore SpecUrl SpecSetters SpecCopy ProofsCopy.

(** ** C96: copying a URL component by component *)

(** Whatever was in the target before, the copy shows the same components, but
    an authority without any text ("file:///x") is lost, and if the path then
    begins with "//" the copy is rejected. *)
Theorem C96_copy :
  forall (E : env) (v : view) (a : uri) (u : url) (b : uri), env_ok E -> wf accepted a -> shows (dbg E) v a -> rep (part_texts b) u ->
    let n := length (recompose a) + length (recompose b) in
    let lost := uri_authority a = Some no_authority in
    (~ lost -> unless_full E n (copy E v) u (builds E a)) /\
    (lost /\ ~ begins_with_slashes (uri_path a) -> unless_full E n (copy E v) u (builds E (with_authority None a))) /\
    (lost /\ begins_with_slashes (uri_path a) -> unless_full E n (copy E v) u rejects).
Proof. exact copy_exact. Qed.
Print Assumptions C96_copy.

(** Piece by piece into a url without authority: empty users, passwords, ports,
    queries and fragments are lost as well; a password that begins with ":" is
    rejected. *)
Theorem C96_copy_pieces :
  forall (E : env) (v : view) (a : uri) (u : url) (b : uri), env_ok E -> wf accepted a -> shows (dbg E) v a -> rep (part_texts b) u -> uri_authority b = None ->
    let n := length (recompose a) + length (recompose b) in
    let bad := begins_with_colon (same (the_password a)) \/
               uri_authority (drop_empty_pieces a) = None /\ begins_with_slashes (uri_path a) in
    (~ bad -> unless_full E n (copy_pieces E v) u (builds E (drop_empty_pieces a))) /\
    (bad -> unless_full E n (copy_pieces E v) u rejects).
Proof. exact (fun E v a u b HE => copy_pieces_spec E HE v a u b). Qed.
Print Assumptions C96_copy_pieces.
(** Nothing is lost exactly if no piece is present but empty. *)
Theorem C96_pieces_complete :
  forall a : uri, drop_empty_pieces a = a <->
    uri_authority a <> Some no_authority /\ the_userinfo a <> Some [] /\ the_password a <> Some [] /\ the_port a <> Some [] /\
    uri_query a <> Some [] /\ uri_fragment a <> Some [].
Proof. exact pieces_id. Qed.
Print Assumptions C96_pieces_complete.

(** The order matters: with the path before the authority, every path that
    begins with "//" is rejected. *)
Theorem C96_copy_path_first :
  forall (E : env) (v : view) (a : uri) (u : url) (b : uri), env_ok E -> wf accepted a -> shows (dbg E) v a -> rep (part_texts b) u -> uri_authority b = None ->
    let n := length (recompose a) + length (recompose b) in
    (~ begins_with_slashes (uri_path a) -> unless_full E n (copy_path_first E v) u (builds E (drop_empty_authority a))) /\
    (begins_with_slashes (uri_path a) -> unless_full E n (copy_path_first E v) u rejects).
Proof. exact (fun E v a u b HE => copy_path_first_spec E HE v a u b). Qed.
Print Assumptions C96_copy_path_first.

(** [copied m s t]: what program [m] makes of the url [t] given the URL [s]. *)
Definition copied (m : env -> view -> U unit) (s t : str) : outcome str :=
  let! v := make_url_view true s in
  let! u := make_url (plenty true) t in
  let '(r, u') := m (plenty true) v u in
  let! _ := r in encoded_url (view_of u').
Example C96_example :
  copied copy (L "s://u:p@h:1/x?q#f") (L "//old/y") = Val (L "s://u:p@h:1/x?q#f") /\
  copied copy (L "//u:@h:?") (L "y") = Val (L "//u:@h:?") /\
  copied copy (L "file:///etc") [] = Val (L "file:/etc") /\
  copied copy (L "file:////etc") [] = Exn invalid_part /\
  copied copy_pieces (L "//u:@h:?") [] = Val (L "//u@h") /\
  copied copy_pieces (L "//u::p@h") [] = Exn invalid_part /\
  copied copy_path_first (L "s://h//x") [] = Exn invalid_part /\
  copied copy (L "s://h//x") [] = Val (L "s://h//x").
Proof. vm_compute. repeat split; reflexivity. Qed.
