(** * PropertiesSegments: editing segments

    [editable d u a]: [u] has components [a], right counters, a terminating zero
    and, in a debug build, agreeing sizes.  [run_edit E e]: obtain the iterators
    for the positions named in [e] and call the function.  [edits E u a need ss i m]:
    the result [m] has segments [ss] and otherwise the components of [a], is
    editable again, and the returned iterator is at position [i]; if there is no
    room, [m] is bad_alloc with the URL untouched.  See SpecSegments.v. *)

From Verif Require Import Base ModelChar ModelParts ModelView ModelUrl SpecChar SpecGrammar SpecLink SpecView SpecStore SpecUrl SpecHistory SpecSetters SpecIter SpecSegments ProofsSetters ProofsSegments.

Definition ex_text : str := L "http://h/a/b?q#f".
Definition ex_uri : uri := mk_uri (Some (L "http")) (Some (mk_authority None (L "h") None)) (L "/a/b") (Some (L "q")) (Some (L "f")).
Definition made (d : bool) (s : str) : url := match make_url (plenty d) s with Val u => u | _ => url0 end.

(** ** What can be edited *)

Theorem C28_constructed_urls_are_covered :
  forall (E : env) (s : str) (u : url) (d : bool), env_ok E -> s <> [] -> make_url E s = Val u ->
    exists a, recompose a = s /\ wf accepted a /\ editable d u a.
Proof. exact constructed_editable. Qed.
Print Assumptions C28_constructed_urls_are_covered.
(** Release builds: after any calls that keep the counters right. *)
Theorem C28_release_urls_are_covered :
  forall u0 u : url, fresh u0 -> terminated u0 -> history keeps_counts false u0 u -> exists a, editable false u a.
Proof. exact release_editable. Qed.
Print Assumptions C28_release_urls_are_covered.
Example C28_covered_example : exists u, make_url (plenty true) ex_text = Val u /\ editable true u ex_uri.
Proof.
  eexists. split; [vm_compute; reflexivity|]. split.
  - exact (rep_buf (part_texts ex_uri) [Some NUL] 16 16 1 2 1 host_name eq_refl ltac:(vm_compute; repeat constructor)).
  - split; reflexivity.
  - eexists. split; [vm_compute; reflexivity|]. vm_compute; reflexivity.
  - reflexivity.
Qed.

(** ** C28 *)

(** Full statement: without [asserts] and for every url with an absolute or empty
    path.  [in_range]: the positions exist, and the first segment of a relative
    path is left alone.  [asserts]: in a debug build, the edit reaches the end of
    a path without a query. *)
Theorem C28_edits_are_list_operations_partial :
  forall (E : env) (u : url) (a : uri) (e : edit),
    env_ok E -> editable (dbg E) u a -> in_range e a ->
    (text_valid e -> ~ asserts (dbg E) e a ->
       edits E u a (edit_need e u a) (list_edit e (the_segments a)) (returned e) (run_edit E e u)) /\
    (text_valid e -> asserts (dbg E) e a ->
       edits_and_aborts E u a (edit_need e u a) (until_assertion e (the_segments a)) (run_edit E e u)) /\
    (~ text_valid e -> run_edit E e u = (Exn invalid_part, u)).
Proof. exact edit_ok. Qed.
Print Assumptions C28_edits_are_list_operations_partial.
Example C28_example :
  editable true (made true ex_text) ex_uri /\ in_range (Replace 1 (L "x/ y")) ex_uri /\
  ~ asserts true (Replace 1 (L "x/ y")) ex_uri /\
  list_edit (Replace 1 (L "x/ y")) (the_segments ex_uri) = [L "a"; L "x%2F%20y"].
Proof.
  destruct C28_covered_example as (u & E & H). unfold made. rewrite E. split; [exact H|].
  split; [split; [cbn; lia|left; reflexivity]|]. split; [intros (_ & _ & _ & K); discriminate|reflexivity].
Qed.

(** Any number of edits: the segments are the ones obtained with the list
    operations of those edits that returned; everything else is unchanged. *)
Theorem C28_edit_sequences_partial :
  forall (d : bool) (u : url) (a : uri) (es : list edit) (u' : url), editable d u a -> edit_history d u es u' ->
    editable d u' (with_segments (list_edits es (the_segments a)) a) /\
    the_segments (with_segments (list_edits es (the_segments a)) a) = list_edits es (the_segments a) /\
    host (u_pt u') = host (u_pt u).
Proof. exact edit_history_ok. Qed.
Print Assumptions C28_edit_sequences_partial.
Example C28_sequence_example : exists u',
  edit_history true (made true ex_text) [Insert_encoded 0 (L "x"); Erase_range 1 3] u' /\
  editable true (made true ex_text) ex_uri /\
  list_edits [Insert_encoded 0 (L "x"); Erase_range 1 3] (the_segments ex_uri) = [L "x"].
Proof.
  assert (H0 : editable true (made true ex_text) ex_uri).
  { destruct C28_covered_example as (u & E & H). unfold made. rewrite E. exact H. }
  eexists. split; [|split; [exact H0|reflexivity]].
  apply (edit_more true _ ex_uri [Insert_encoded 0 (L "x")] (snd (run_edit (plenty true) (Insert_encoded 0 (L "x")) (made true ex_text))) (plenty true) _ (mk_seg_it 10 0)).
  - exact H0.
  - apply (edit_more true _ ex_uri [] (made true ex_text) (plenty true) _ (mk_seg_it 10 2)); [exact H0|constructor|exact (plenty_ok true)|reflexivity| | |vm_compute; reflexivity].
    + split; [cbn; lia|left; reflexivity].
    + intros (_ & _ & _ & K). discriminate.
  - exact (plenty_ok true).
  - reflexivity.
  - split; [cbn; lia|left; reflexivity].
  - intros (_ & _ & _ & K). discriminate.
  - vm_compute. reflexivity.
Qed.

(** Where the full statement is false.  Debug build: appending a segment to a
    path without a query. *)
Theorem C28_append_refuted :
  exists u, make_url (plenty true) (L "http://h/a") = Val u /\
    fst (run_edit (plenty true) (Insert_encoded 1 (L "b")) u) = Abort.
Proof. eexists. split; [vm_compute; reflexivity|]. vm_compute; reflexivity. Qed.
Print Assumptions C28_append_refuted.
(** Debug build: replacing the last segment. *)
Theorem C28_replace_last_refuted :
  exists u, make_url (plenty true) (L "http://h/a") = Val u /\
    fst (run_edit (plenty true) (Replace_encoded 0 (L "b")) u) = Abort.
Proof. eexists. split; [vm_compute; reflexivity|]. vm_compute; reflexivity. Qed.
Print Assumptions C28_replace_last_refuted.
(** Debug build: after a modifier that makes the URL shorter. *)
Theorem C28_after_shrinking_refuted :
  exists u u1, make_url (plenty true) (L "http://host/a?q") = Val u /\
    run (plenty true) (Set_encoded_host (L "h")) u = (Val tt, u1) /\
    run_edit (plenty true) (Insert_encoded 0 (L "b")) u1 = (Abort, u1) /\
    run_edit (plenty true) (Erase 0) u1 = (Abort, u1).
Proof. do 2 eexists. split; [vm_compute; reflexivity|]. split; [vm_compute; reflexivity|]. split; (vm_compute; reflexivity). Qed.
Print Assumptions C28_after_shrinking_refuted.
(** Both builds: a default-constructed url; a byte that was never written is
    moved and read. *)
Theorem C28_default_url_refuted :
  forall d : bool, fst (run_edit (plenty d) (Insert_encoded 0 (L "a")) url0) = UB.
Proof. intros []; vm_compute; reflexivity. Qed.
Print Assumptions C28_default_url_refuted.

(** *** Relative paths *)

(** Inserting before the first segment of a relative path merges the two, and
    the size is too large. *)
Theorem C28_relative_insert_is_wrong :
  forall (E : env) (u : url) (a : uri) (p : seg_it) (t : str),
    env_ok E -> editable (dbg E) u a -> rooted (uri_path a) = false -> position (dbg E) u 0 = Val p ->
    upper_text k_pchar t -> fits E u (usize u + (length t + 1)) = true ->
    exists u' s r, the_segments a = s :: r /\ snd (seg_insert_encoded E p t u) = u' /\
      let a' := with_path ("/"%char :: t ++ uri_path a) a in
      rep (part_texts a') u' /\ the_segments a' = (t ++ s) :: r /\ segments_size (view_of u') = S (length (the_segments a')).
Proof. exact relative_insert. Qed.
Print Assumptions C28_relative_insert_is_wrong.
(** Erasing the first segment of a relative path fires an assertion; in a release
    build the path becomes absolute and the size is too large. *)
Theorem C28_relative_erase_is_wrong :
  forall (E : env) (u : url) (a : uri) (p : seg_it),
    editable (dbg E) u a -> rooted (uri_path a) = false -> position (dbg E) u 0 = Val p ->
    (dbg E = true -> seg_erase E p u = (Abort, u)) /\
    (dbg E = false -> exists u' s r, the_segments a = s :: r /\ snd (seg_erase E p u) = u' /\
      let a' := with_path (absolute_path r) a in
      rep (part_texts a') u' /\ the_segments a' = r /\ segments_size (view_of u') = S (length r)).
Proof. exact relative_erase. Qed.
Print Assumptions C28_relative_erase_is_wrong.
Example C28_relative_example : exists p, editable true (made true (L "a/b?q")) (mk_uri None None (L "a/b") (Some (L "q")) None) /\
  position true (made true (L "a/b?q")) 0 = Val p.
Proof.
  eexists. split; [|vm_compute; reflexivity]. split.
  - exact (rep_buf (part_texts (mk_uri None None (L "a/b") (Some (L "q")) None)) [Some NUL] 5 5 1 2 1 host_none eq_refl ltac:(vm_compute; repeat constructor)).
  - split; reflexivity.
  - eexists. split; [vm_compute; reflexivity|]. vm_compute; reflexivity.
  - reflexivity.
Qed.
