(** * PropertiesHeld: exactly which iterators stay valid

    [counted u a]: [u] has components [a] and right counters.  [position d u j]:
    the iterator of segment [j].  [starts a j]: where segment [j] begins in the
    text of [a].  [same_place j a a']: segment [j] occupies the same characters in
    both.  [param_position d v j]: the iterator of parameter [j].  See SpecHeld.v,
    SpecSegments.v. *)

From Verif Require Import Base ModelChar ModelParts ModelView ModelUrl SpecChar SpecGrammar SpecView SpecStore SpecUrl SpecHistory SpecSetters SpecIter SpecSegments SpecHeld ProofsSetters ProofsHeld.

(** ** C99 *)

(** An iterator is the place of its segment, end() the end of the path. *)
Theorem C99_place :
  forall (d : bool) (u : url) (a : uri) (j : nat), counted u a -> j <= length (the_segments a) ->
    position d u j = Val (mk_seg_it (starts a j) (starts a (S j) - starts a j)).
Proof. exact place_exists. Qed.
Print Assumptions C99_place.

(** Whatever happened to the url in between: the iterator is still the iterator of
    segment [j] exactly if segment [j] occupies the same characters as before. *)
Theorem C99_valid :
  forall (d : bool) (u u' : url) (a a' : uri) (j : nat) (p : seg_it), counted u a -> counted u' a' ->
    j <= length (the_segments a) -> j <= length (the_segments a') ->
    position d u j = Val p -> (position d u' j = Val p <-> same_place j a a').
Proof. exact valid_exactly. Qed.
Print Assumptions C99_valid.
Theorem C99_edit :
  forall (E : env) (u : url) (a : uri) (e : edit) (q : seg_it) (u' : url), env_ok E -> editable (dbg E) u a -> in_range e a -> run_edit E e u = (Val q, u') ->
    let a' := with_segments (list_edit e (the_segments a)) a in
    forall (j : nat) (p : seg_it), j <= length (the_segments a) -> j <= length (the_segments a') -> position (dbg E) u j = Val p ->
      (position (dbg E) u' j = Val p <-> same_place j a a').
Proof. exact edit_valid. Qed.
Print Assumptions C99_edit.

(** What an iterator that is no longer valid reads: the characters of the present
    text at its old place, wherever they belong, as long as the text is long
    enough; a leading "/" is skipped. *)
Theorem C99_stale_reads :
  forall (u : url) (a : uri) (p : seg_it), rep (part_texts a) u -> si_off p + si_n p <= length (recompose a) ->
    seg_deref (view_of u) p = Val (without_slash (firstn (si_n p) (skipn (si_off p) (recompose a)))).
Proof. exact read_anywhere. Qed.
Print Assumptions C99_stale_reads.

(** Parameters: with the same query, all positions move by the change of the
    length of the text before it, and so all iterators are valid or none is. *)
Theorem C99_params_move :
  forall (d : bool) (v v' : view) (a a' : uri) (j : nat), shown v a -> shown v' a' -> uri_query a' = uri_query a -> iterable a -> iterable a' ->
    j <= length (params_of a) ->
    exists p p', param_position d v j = Val p /\ param_position d v' j = Val p' /\
      pi_off p + length (front_and_path a') = pi_off p' + length (front_and_path a) /\ pi_nk p' = pi_nk p /\ pi_nv p' = pi_nv p.
Proof. exact params_moved. Qed.
Print Assumptions C99_params_move.
Theorem C99_params_valid :
  forall (d : bool) (v v' : view) (a a' : uri) (j : nat) (p : par_it), shown v a -> shown v' a' -> uri_query a' = uri_query a -> iterable a -> iterable a' ->
    j <= length (params_of a) -> param_position d v j = Val p ->
    (param_position d v' j = Val p <-> length (front_and_path a') = length (front_and_path a)).
Proof. exact params_valid. Qed.
Print Assumptions C99_params_valid.

(** ** Examples *)

Definition held_uri (path : str) : uri := mk_uri (Some (L "s")) (Some (mk_authority None (L "h") None)) path (Some (L "x=1&y=2")) None.
Definition held_text : str := L "s://h/aa/b/c?x=1&y=2".
Definition held : url := match make_url (plenty true) held_text with Val u => u | _ => url0 end.
Definition after_edit (e : edit) : url := snd (run_edit (plenty true) e held).

Lemma held_editable : editable true held (held_uri (L "/aa/b/c")).
Proof.
  split.
  - exact (rep_buf (part_texts (held_uri (L "/aa/b/c"))) [Some NUL] 20 20 1 3 2 host_name eq_refl ltac:(vm_compute; repeat constructor)).
  - split; reflexivity.
  - eexists. split; [vm_compute; reflexivity|]. vm_compute; reflexivity.
  - reflexivity.
Qed.
Example C99_place_example :
  counted held (held_uri (L "/aa/b/c")) /\ 1 <= length (the_segments (held_uri (L "/aa/b/c"))) /\ starts (held_uri (L "/aa/b/c")) 1 = 8.
Proof. split; [destruct held_editable; split; assumption|]. vm_compute. split; [repeat constructor|reflexivity]. Qed.
(** A replacement of the same length keeps all iterators; a longer one keeps the
    segments before it; the iterator of the replaced segment then shows a part of
    it, the next one the end of it. *)
Example C99_edit_example :
  in_range (Replace 1 (L "z")) (held_uri (L "/aa/b/c")) /\
  let a := held_uri (L "/aa/b/c") in let a1 := held_uri (L "/aa/z/c") in let a2 := held_uri (L "/aa/xyz/c") in
  same_place 1 a a1 /\ same_place 3 a a1 /\ same_place 0 a a2 /\ ~ same_place 1 a a2 /\ ~ same_place 2 a a2 /\
  (let! p := position true held 1 in let! q := position true held 2 in
       let! s := seg_deref (view_of (after_edit (Replace 1 (L "xyz")))) p in
       let! t := seg_deref (view_of (after_edit (Replace 1 (L "xyz")))) q in Val (s, t)) = Val (L "x", L "yz").
Proof.
  split; [split; [cbn; lia|left; reflexivity]|]. cbv zeta. unfold same_place.
  repeat split; try (vm_compute; reflexivity); intros K; vm_compute in K; destruct K; discriminate.
Qed.
(** After an insertion at the front the old begin() is a part of two segments. *)
Example C99_insert_example :
  (let! p := position true held 0 in seg_deref (view_of (after_edit (Insert 0 (L "x")))) p) = Val (L "x/").
Proof. vm_compute. reflexivity. Qed.
Definition asks (path : str) : uri := mk_uri None None path (Some (L "x=1&y")) None.
Example C99_params_example : exists v v',
  shown v (asks []) /\ shown v' (asks (L "a")) /\ iterable (asks []) /\ iterable (asks (L "a")) /\ 1 <= length (params_of (asks [])) /\
  (param_position true v 1 = Val (mk_par_it 4 2 0)) /\ (param_position true v' 1 = Val (mk_par_it 5 2 0)).
Proof.
  assert (Q : text accepted k_query (L "x=1&y")) by (repeat (apply pt_char; [reflexivity|]); constructor).
  assert (W1 : wf accepted (asks [])).
  { unfold wf, asks. cbn [uri_scheme uri_authority uri_path uri_query uri_fragment]. repeat split; try discriminate.
    - left. reflexivity.
    - intros q E. injection E as <-. exact Q. }
  assert (W2 : wf accepted (asks (L "a"))).
  { unfold wf, asks. cbn [uri_scheme uri_authority uri_path uri_query uri_fragment]. repeat split; try discriminate.
    - right. right. split; [split; [apply pt_char; [reflexivity|constructor]|split; [discriminate|intros r E; discriminate E]]|].
      intros x y E. destruct x as [|z [|z' x]]; discriminate E.
    - intros q E. injection E as <-. exact Q. }
  do 2 eexists. split; [apply (shown_view _ _ true); [exact W1|vm_compute; reflexivity]|].
  split; [apply (shown_view _ _ true); [exact W2|vm_compute; reflexivity]|].
  split; [right; left; reflexivity|]. split; [right; left; reflexivity|]. split; [vm_compute; repeat constructor|].
  split; vm_compute; reflexivity.
Qed.
