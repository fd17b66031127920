(** * PropertiesStale: iterating and editing with wrong counters

    A url keeps the numbers of its segments and parameters in counters that most
    modifiers do not update (C29, C66).  [rep (part_texts a) u]: [u] has components
    [a]; its counters are arbitrary.  [listed k l]: nothing if [k] is zero, else [l].
    [no_segments_but_counted], [no_query_but_counted]: there is no path (query), but
    the counter is not zero.  [off_by E x u]: [u] with its counter of segments
    increased by [x], modulo the number of values of std::size_t.  [place_of a j]:
    the iterator of segment [j].  See SpecStale.v. *)

From Coq Require Import Lia.
From Verif Require Import Base ModelChar ModelParts ModelView ModelUrl ModelCount SpecChar SpecGrammar SpecView SpecStore SpecUrl SpecHistory SpecSetters
  SpecIter SpecSegments SpecHeld SpecStale ProofsSetters ProofsStale ProofsStaleEdit PropertiesSegments PropertiesHeld.

(** ** C100: iterating over segments *)

(** All segments are listed or none: only a counter of zero matters. *)
Theorem C100_all_or_none :
  forall (d : bool) (u : url) (a : uri) (fuel : nat), rep (part_texts a) u -> terminated u ->
    (d = true -> ~ no_segments_but_counted u a) -> length (segments_of (uri_path a)) < fuel ->
    seg_all d (view_of u) (seg_parse_base d (view_of u)) fuel = Val (listed (nseg (u_pt u)) (segments_of (uri_path a))).
Proof. exact segments_with_any_counter. Qed.
Print Assumptions C100_all_or_none.
(** The remaining case: an assertion fires. *)
Theorem C100_aborts :
  forall (u : url) (a : uri) (fuel : nat), rep (part_texts a) u -> no_segments_but_counted u a ->
    seg_all true (view_of u) (seg_parse_base true (view_of u)) fuel = Abort.
Proof. exact segments_abort. Qed.
Print Assumptions C100_aborts.
(** Backwards from end(), every segment is reached whatever the counter is. *)
Theorem C100_from_end :
  forall (d : bool) (u : url) (a : uri) (k : nat), rep (part_texts a) u -> k <= length (the_segments a) ->
    from_end d (view_of u) k = Val (place_of a (length (the_segments a) - k)).
Proof. exact from_end_place. Qed.
Print Assumptions C100_from_end.
(** A url whose counter is zero lists nothing for ever, unless it is replaced. *)
Theorem C100_never_listed :
  forall (P : op -> Prop) (d : bool) (u0 u : url), (exists a, rep (part_texts a) u0) -> (forall o, P o -> replaces o = false) -> history P d u0 u ->
    (nseg (u_pt u0) = 0 -> forall fuel, seg_all d (view_of u) (seg_parse_base d (view_of u)) (S fuel) = Val []) /\
    (nparam (u_pt u0) = 0 -> forall fuel key,
       par_all d (view_of u) (S fuel) = Val [] /\ contains d (view_of u) (S fuel) key = Val false /\ count d (view_of u) (S fuel) key = Val 0 /\
       index d (view_of u) (S fuel) key = Val [] /\ at_ d (view_of u) (S fuel) key = Exn out_of_range).
Proof. exact never_listed. Qed.
Print Assumptions C100_never_listed.

(** ** C101: parameters *)

Theorem C101_all_or_none :
  forall (d : bool) (u : url) (a : uri), rep (part_texts a) u -> wf_components a -> iterable a -> (d = true -> ~ no_query_but_counted u a) ->
    exists ds, decoded_params (listed (nparam (u_pt u)) (params_of a)) ds /\
    forall fuel key, length ds < fuel ->
      par_all d (view_of u) fuel = Val (listed (nparam (u_pt u)) (params_of a)) /\
      contains d (view_of u) fuel key = Val (match lookup key ds with Some _ => true | None => false end) /\
      count d (view_of u) fuel key = Val (occurrences key ds) /\
      index d (view_of u) fuel key = Val (match lookup key ds with Some x => x | None => [] end) /\
      at_ d (view_of u) fuel key = match lookup key ds with Some x => Val x | None => Exn out_of_range end /\
      exists p e, find d (view_of u) fuel key = Val p /\ par_end d (view_of u) = Val e /\
        par_eq d p e = Val (match lookup key ds with Some _ => false | None => true end).
Proof. exact params_with_any_counter. Qed.
Print Assumptions C101_all_or_none.
Theorem C101_aborts :
  forall (u : url) (a : uri) (fuel : nat) (key : str), rep (part_texts a) u -> no_query_but_counted u a -> uri_fragment a <> None \/ terminated u ->
    par_all true (view_of u) fuel = Abort /\ contains true (view_of u) fuel key = Abort /\ count true (view_of u) fuel key = Abort /\
    find true (view_of u) fuel key = Abort /\ index true (view_of u) fuel key = Abort /\ at_ true (view_of u) fuel key = Abort.
Proof. exact params_abort. Qed.
Print Assumptions C101_aborts.

(** ** C102: editing segments *)

(** A counter that is wrong by [x] stays wrong by [x], and nothing else depends on
    it, except that an assertion requires it to be at least the number of segments
    removed. *)
Theorem C102_error_stays :
  forall (E : env) (x : nat) (u : url) (a : uri) (e : edit), env_ok E -> editable (dbg E) u a -> in_range e a ->
    (dbg E = true -> removes e <= (nseg (u_pt u) + x) mod S (size_max E)) ->
    w_run_edit E e (place_of a (edit_at e)) (place_of a (edit_to e)) (off_by E x u) =
      (fst (run_edit E e u), off_by E x (snd (run_edit E e u))).
Proof. exact edits_shift. Qed.
Print Assumptions C102_error_stays.
Theorem C102_any_counter :
  forall (E : env) (k : nat) (u : url), k <= size_max E -> exists x, off_by E x u = with_count k u.
Proof. exact any_count. Qed.
Print Assumptions C102_any_counter.
(** The assertion; a replacement reserves memory before. *)
Theorem C102_aborts :
  forall (E : env) (x : nat) (u : url) (a : uri) (e : edit), env_ok E -> dbg E = true -> editable true u a -> in_range e a ->
    (nseg (u_pt u) + x) mod S (size_max E) < removes e ->
    exists r u', w_run_edit E e (place_of a (edit_at e)) (place_of a (edit_to e)) (off_by E x u) = (r, u') /\
      (text_valid e -> r = if fits E u (edit_need e u a) then Abort else Exn bad_alloc) /\ (~ text_valid e -> r = Exn invalid_part) /\
      rep (part_texts a) u' /\ nseg (u_pt u') = (nseg (u_pt u) + x) mod S (size_max E).
Proof. exact edits_abort. Qed.
Print Assumptions C102_aborts.

(** ** Examples *)

(** [held]: s://h/aa/b/c?x=1&y=2 *)
Example C100_example :
  let u := with_count 1 held in
  rep (part_texts (held_uri (L "/aa/b/c"))) u /\ terminated u /\ ~ no_segments_but_counted u (held_uri (L "/aa/b/c")) /\
  seg_all true (view_of u) (seg_parse_base true (view_of u)) 9 = Val [L "aa"; L "b"; L "c"].
Proof.
  cbv zeta. destruct held_editable as [R _ T _]. split; [apply rep_count, R|]. split; [exact T|]. split; [intros (_ & K & _); discriminate K|vm_compute; reflexivity].
Qed.
Definition run1 (o : op) (u : url) : url := snd (run (plenty false) o u).
(** The counter of "s://h" is zero, and the new segments are not listed; with a
    path before, they are. *)
Example C100_set_path_example :
  let w := fun t => run1 (Set_encoded_path (L "/a/b")) (made false t) in
  let all := fun u => seg_all false (view_of u) (seg_parse_base false (view_of u)) 9 in
  all (w (L "s://h")) = Val [] /\ all (w (L "s://h/x")) = Val [L "a"; L "b"].
Proof. vm_compute. split; reflexivity. Qed.
Example C100_aborts_example :
  let u := snd (run (plenty true) (Set_encoded_path []) (made true (L "s://h/x"))) in
  no_segments_but_counted u (mk_uri (Some (L "s")) (Some (mk_authority None (L "h") None)) [] None None) /\
  seg_all true (view_of u) (seg_parse_base true (view_of u)) 9 = Abort.
Proof. cbv zeta. split; [split; [vm_compute; discriminate|split; reflexivity]|vm_compute; reflexivity]. Qed.
Example C101_example :
  let w := fun t => run1 (Set_encoded_query (L "a=1&b=2")) (made false t) in
  at_ false (view_of (w (L "s://h/"))) 9 (L "b") = Exn out_of_range /\
  at_ false (view_of (w (L "s://h/?x"))) 9 (L "b") = Val (L "2") /\ nparam (u_pt (w (L "s://h/?x"))) = 1.
Proof. vm_compute. repeat split. Qed.
Example C101_aborts_example :
  let u := snd (run (plenty true) (Set_query_part []) (made true (L "s://h/?x#f"))) in
  nparam (u_pt u) = 1 /\ par_all true (view_of u) 9 = Abort.
Proof. vm_compute. split; reflexivity. Qed.
(** Erasing two segments with a counter of one: the counter wraps around in a
    release build; in a debug build an assertion fires. *)
Example C102_example :
  let a := held_uri (L "/aa/b/c") in let e := Erase_range 0 2 in
  in_range e a /\ removes e = 2 /\
  (let w := fun d => w_run_edit (plenty d) e (place_of a 0) (place_of a 2) (with_count 1 held) in
   fst (w true) = Abort /\ nseg (u_pt (snd (w false))) = size_max (plenty false) /\
   encoded_path (view_of (snd (w false))) = Val (L "/c")).
Proof.
  cbv zeta. split; [split; [cbn; lia|left; reflexivity]|]. split; [reflexivity|]. vm_compute. repeat split.
Qed.
