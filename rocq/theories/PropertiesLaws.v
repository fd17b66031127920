(** * PropertiesLaws: laws of segment edits, and edits in loops

    [alike u1 u2]: the same text, offsets, counters and host type (SpecAlike).
    [editable], [run_edit], [position], [in_range], [edit_history]: SpecSegments.
    The loops are in SpecLaws. *)

From Verif Require Import Base ModelChar ModelParts ModelView ModelUrl SpecChar SpecGrammar SpecLink SpecView SpecStore SpecUrl SpecHistory SpecSetters SpecSegments SpecAlike SpecLaws ProofsSetters ProofsLaws PropertiesSegments.

(** ** C107 *)

(** Two sequences of edits that amount to the same list leave urls that look the
    same. *)
Theorem C107_the_list_decides :
  forall (d : bool) (u : url) (a : uri) (es1 es2 : list edit) (u1 u2 : url),
    editable d u a -> edit_history d u es1 u1 -> edit_history d u es2 u2 ->
    list_edits es1 (the_segments a) = list_edits es2 (the_segments a) -> alike u1 u2.
Proof. exact list_decides. Qed.
Print Assumptions C107_the_list_decides.
(** Erasing what was inserted always succeeds, restores the url and returns the
    iterator it began with. *)
Theorem C107_insert_then_erase :
  forall (E1 E2 : env) (u : url) (a : uri) (e : edit) (i : nat) (p : seg_it) (u1 : url) (r : outcome seg_it) (u2 : url),
    env_ok E1 -> env_ok E2 -> dbg E1 = dbg E2 -> editable (dbg E1) u a -> inserts e i -> in_range e a ->
    run_edit E1 e u = (Val p, u1) -> run_edit E2 (Erase i) u1 = (r, u2) ->
    alike u2 u /\ exists q, r = Val q /\ position (dbg E1) u i = Val q.
Proof. exact insert_then_erase. Qed.
Print Assumptions C107_insert_then_erase.
(** Inserting what was erased succeeds without allocating and restores the url,
    exactly if the segment was correctly encoded. *)
Theorem C107_erase_then_insert :
  forall (E1 E2 : env) (u : url) (a : uri) (i : nat) (p : seg_it) (u1 : url) (r : outcome seg_it) (u2 : url),
    env_ok E1 -> env_ok E2 -> dbg E1 = dbg E2 -> editable (dbg E1) u a -> in_range (Erase i) a ->
    run_edit E1 (Erase i) u = (Val p, u1) ->
    run_edit E2 (Insert_encoded i (nth i (the_segments a) [])) u1 = (r, u2) ->
    (upper_text k_pchar (nth i (the_segments a) []) -> alike u2 u /\ exists q, r = Val q /\ position (dbg E1) u (S i) = Val q) /\
    (~ upper_text k_pchar (nth i (the_segments a) []) -> r = Exn invalid_part /\ u2 = u1).
Proof. exact erase_then_insert. Qed.
Print Assumptions C107_erase_then_insert.
(** Replacing is erasing and inserting. *)
Theorem C107_replace :
  forall (E1 E2 E3 : env) (u : url) (a : uri) (i : nat) (s : str) (enc : bool) (p : seg_it) (u1 : url) (q : seg_it) (v : url) (r : seg_it) (w : url),
    env_ok E1 -> env_ok E2 -> env_ok E3 -> dbg E2 = dbg E1 -> dbg E3 = dbg E1 ->
    editable (dbg E1) u a -> in_range (Erase i) a ->
    run_edit E1 (if enc then Replace_encoded i s else Replace i s) u = (Val p, u1) ->
    run_edit E2 (Erase i) u = (Val q, v) ->
    run_edit E3 (if enc then Insert_encoded i s else Insert i s) v = (Val r, w) ->
    alike u1 w /\ p = r.
Proof. exact replace_is_erase_insert. Qed.
Print Assumptions C107_replace.
Example C107_example :
  editable true (made true ex_text) ex_uri /\ in_range (Insert 1 (L "x y")) ex_uri /\ in_range (Erase 0) ex_uri /\
  (exists p u1 q u2, run_edit (plenty true) (Insert 1 (L "x y")) (made true ex_text) = (Val p, u1) /\
     encoded_url (view_of u1) = Val (L "http://h/a/x%20y/b?q#f") /\
     run_edit (plenty true) (Erase 1) u1 = (Val q, u2) /\ encoded_url (view_of u2) = Val ex_text) /\
  (exists p u1 q u2, run_edit (plenty true) (Erase 0) (made true ex_text) = (Val p, u1) /\ encoded_url (view_of u1) = Val (L "http://h/b?q#f") /\
     run_edit (plenty true) (Insert_encoded 0 (nth 0 (the_segments ex_uri) [])) u1 = (Val q, u2)).
Proof.
  split; [destruct C28_covered_example as (u & E & H); unfold made; rewrite E; exact H|].
  split; [split; [cbn; lia|left; reflexivity]|]. split; [split; [cbn; lia|left; reflexivity]|]. split.
  - do 4 eexists. split; [vm_compute; reflexivity|]. split; [vm_compute; reflexivity|]. split; vm_compute; reflexivity.
  - do 4 eexists. split; [vm_compute; reflexivity|]. split; [vm_compute; reflexivity|]. vm_compute; reflexivity.
Qed.
(** A segment that can be erased but not inserted again. *)
Example C107_badly_encoded_example :
  ~ upper_text k_pchar (L "%2f") /\ exists u p u1, make_url (plenty true) (L "/%2f?q") = Val u /\
    run_edit (plenty true) (Erase 0) u = (Val p, u1) /\ fst (run_edit (plenty true) (Insert_encoded 0 (L "%2f")) u1) = Exn invalid_part.
Proof.
  split; [|do 3 eexists; split; [vm_compute; reflexivity|]; split; vm_compute; reflexivity].
  intros H. apply (proj2 (ProofsChar.check_spec _ _)) in H. vm_compute in H. discriminate.
Qed.

(** ** C108 *)

(** it = insert(it, s) for every s of a list: the segments follow each other in
    order; the loop ends early exactly if memory runs out, with the segments up
    to there inserted. *)
Theorem C108_insert_loop :
  forall (E : env) (u : url) (a : uri) (i : nat) (ss : list str) (p : seg_it),
    env_ok E -> editable (dbg E) u a -> rooted (uri_path a) = true \/ 0 < i -> i <= length (the_segments a) ->
    position (dbg E) u i = Val p -> ~ (dbg E = true /\ at_end_without_query a i) ->
    exists u' k, k <= length ss /\
      left_with E u' a (insert_all i (map (canonical_encoding k_pchar) (firstn k ss)) (the_segments a)) /\ host (u_pt u') = host (u_pt u) /\
      ((k = length ss /\ exists q, insert_loop E p ss u = (Val q, u') /\ position (dbg E) u' (i + k) = Val q) \/
       (k < length ss /\ insert_loop E p ss u = (Exn bad_alloc, u') /\
        fits E u' (usize u' + (length (canonical_encoding k_pchar (nth k ss [])) + 1)) = false)).
Proof. exact insert_loop_from. Qed.
Print Assumptions C108_insert_loop.
(** it = erase(it), [n] times: what erase(first, last) does.  In a debug build
    the last erasure stops with an assertion if it reaches the end of a path
    without a query. *)
Theorem C108_erase_loop :
  forall (E : env) (u : url) (a : uri) (i n : nat) (p : seg_it),
    env_ok E -> editable (dbg E) u a -> rooted (uri_path a) = true \/ 0 < i -> i + n <= length (the_segments a) ->
    position (dbg E) u i = Val p ->
    exists u', left_with E u' a (erase_range i (i + n) (the_segments a)) /\
      (~ (dbg E = true /\ 0 < n /\ at_end_without_query a (i + n)) ->
         host (u_pt u') = host (u_pt u) /\ exists q, erase_loop E n p u = (Val q, u') /\ position (dbg E) u' i = Val q) /\
      (dbg E = true /\ 0 < n /\ at_end_without_query a (i + n) -> erase_loop E n p u = (Abort, u')).
Proof. exact erase_loop_from. Qed.
Print Assumptions C108_erase_loop.
(** Erasing in a loop every segment that satisfies a condition: it terminates and
    leaves the others in order.  In a debug build it stops with an assertion
    exactly if the last segment is to be erased and there is no query. *)
Theorem C108_erase_if :
  forall (E : env) (f : str -> bool) (u : url) (a : uri) (fuel : nat) (p : seg_it),
    env_ok E -> editable (dbg E) u a ->
    rooted (uri_path a) = true \/ (exists s r, the_segments a = s :: r /\ f s = false) ->
    position (dbg E) u 0 = Val p -> length (the_segments a) < fuel ->
    let ss := filter (fun s => negb (f s)) (the_segments a) in
    exists u', left_with E u' a ss /\
      (~ (dbg E = true /\ uri_query a = None /\ last_is f (the_segments a)) ->
         host (u_pt u') = host (u_pt u) /\ exists q, erase_if E f fuel p u = (Val q, u') /\ position (dbg E) u' (length ss) = Val q) /\
      (dbg E = true /\ uri_query a = None /\ last_is f (the_segments a) -> erase_if E f fuel p u = (Abort, u')).
Proof. exact erase_if_from. Qed.
Print Assumptions C108_erase_if.

Definition url_after_loop (d : bool) (s : str) (m : seg_it -> U seg_it) : outcome str :=
  let u := made d s in
  let! p := position d u 0 in
  match m p u with (Val _, u') => encoded_url (view_of u') | (Abort, _) => Abort | _ => UB end.
Example C108_example :
  editable true (made true ex_text) ex_uri /\
  url_after_loop true ex_text (fun p => insert_loop (plenty true) p [L "x"; L "y z"]) = Val (L "http://h/x/y%20z/a/b?q#f") /\
  url_after_loop true ex_text (erase_loop (plenty true) 2) = Val (L "http://h?q#f") /\
  url_after_loop true (L "/a/./b/.?q") (erase_if (plenty true) (fun s => str_eqb s (L ".")) 5) = Val (L "/a/b?q") /\
  url_after_loop true (L "/a/./b/.") (erase_if (plenty true) (fun s => str_eqb s (L ".")) 5) = Abort /\
  url_after_loop false (L "/a/./b/.") (erase_if (plenty false) (fun s => str_eqb s (L ".")) 5) = Val (L "/a/b").
Proof.
  split; [destruct C28_covered_example as (u & E & H); unfold made; rewrite E; exact H|]. repeat split; vm_compute; reflexivity.
Qed.
