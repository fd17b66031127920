(** * PropertiesIter: iterating and looking up

    [shown v a]: [v] is a url_view of a string with components [a], or a url
    with components [a] and right counters (SpecIter.v).  [seg_all], [par_all]:
    the elements seen by a range-for loop with at most [fuel] rounds.  A url
    (not const) iterates segments with [seg_parse_base], a url_view and a const
    url with [seg_parse_view]; parameters are iterated in the same way. *)

From Verif Require Import Base ModelChar ModelParts ModelView ModelUrl SpecChar SpecGrammar SpecLink SpecView SpecStore SpecUrl SpecHistory SpecIter ProofsIter.

(** What [shown] covers. *)
Theorem C22_views_are_covered :
  forall (d : bool) (s : str) (v : view), make_url_view d s = Val v -> exists a, recompose a = s /\ shown v a.
Proof. exact view_shown. Qed.
Print Assumptions C22_views_are_covered.
Theorem C22_urls_are_covered :
  forall (d : bool) (u0 u : url), fresh u0 -> history keeps_counts d u0 u ->
    exists a, rep (part_texts a) u /\ shown (view_of u) a.
Proof. exact url_shown. Qed.
Print Assumptions C22_urls_are_covered.

Definition example_view (s : str) : view := match make_url_view true s with Val v => v | _ => mk_view [] parts0 end.
Definition text1 : str := L "http://h/a//b%20c/?x=1&y=2&x=3#f".
Example C22_covered_example : exists a, recompose a = text1 /\ shown (example_view text1) a.
Proof. apply (C22_views_are_covered true). vm_compute. reflexivity. Qed.

(** ** C22, C23: segments *)

Theorem C22_url_segments :
  forall (d : bool) (v : view) (a : uri) (fuel : nat), shown v a -> length (segments_of (uri_path a)) < fuel ->
    segments_size v = length (segments_of (uri_path a)) /\
    seg_all d v (seg_parse_base d v) fuel = Val (segments_of (uri_path a)).
Proof. exact url_iterates_segments. Qed.
Print Assumptions C22_url_segments.
Example C22_url_example :
  seg_all true (example_view text1) (seg_parse_base true (example_view text1)) 9 = Val [L "a"; L ""; L "b%20c"; L ""].
Proof. vm_compute. reflexivity. Qed.

(** Full statement for url_view and const url: the same for every URL. *)
Theorem C22_view_segments_partial :
  forall (d : bool) (v : view) (a : uri), shown v a -> uri_query a = None \/ uri_path a = [] ->
    forall fuel, length (segments_of (uri_path a)) < fuel ->
      seg_all d v (seg_parse_view d v) fuel = Val (segments_of (uri_path a)).
Proof. exact view_iterates_segments. Qed.
Print Assumptions C22_view_segments_partial.
Example C22_view_example :
  let v := example_view (L "//h/a/b#f") in seg_all true v (seg_parse_view true v) 9 = Val [L "a"; L "b"].
Proof. vm_compute. reflexivity. Qed.
(** For all other URLs it is false, no matter how long one waits. *)
Theorem C22_view_with_query_never_ends :
  forall (d : bool) (v : view) (a : uri), shown v a -> uri_query a <> None -> uri_path a <> [] ->
    forall fuel l, seg_all d v (seg_parse_view d v) fuel <> Val l.
Proof. exact view_never_ends. Qed.
Print Assumptions C22_view_with_query_never_ends.
Definition short : uri := mk_uri None None (L "a") (Some (L "q")) None.
Example C22_never_ends_example : shown (example_view (L "a?q")) short /\ uri_query short <> None /\ uri_path short <> [].
Proof.
  split; [|split; discriminate]. apply (shown_view _ _ true); [|vm_compute; reflexivity].
  unfold wf, short. cbn [uri_scheme uri_authority uri_path uri_query uri_fragment]. repeat split; try discriminate.
  - right. right. split; [split; [apply pt_char; [reflexivity|constructor]|split; [discriminate|intros r E; discriminate E]]|].
    intros x y E. destruct x as [|z [|z' x]]; discriminate E.
  - intros q E. injection E as <-. apply pt_char; [reflexivity|constructor].
Qed.
Theorem C22_view_segments_refuted :
  exists v, make_url_view true (L "/a?q") = Val v /\ encoded_path v = Val (L "/a") /\
    seg_all true v (seg_parse_view true v) 9 = Abort /\ seg_all false v (seg_parse_view false v) 99 = Hang.
Proof. eexists. split; [vm_compute; reflexivity|]. vm_compute. auto. Qed.
Print Assumptions C22_view_segments_refuted.

(** [bidirectional]: SpecIter.v. *)
Theorem C23_url_segments_bidirectional :
  forall (d : bool) (v : view) (a : uri), shown v a -> let parse := seg_parse_base d v in
    bidirectional (seg_begin v parse) (seg_end v parse) (seg_incr d v parse) (seg_decr d v parse)
      (seg_deref v) (seg_eq d) (segments_of (uri_path a)).
Proof. exact url_bidirectional. Qed.
Print Assumptions C23_url_segments_bidirectional.
Example C23_url_example :
  let v := example_view text1 in let parse := seg_parse_base true v in
  (let! e := seg_end v parse in let! i := seg_decr true v parse e in let! j := seg_decr true v parse i in
   let! k := seg_incr true v parse j in let! x := seg_deref v j in let! y := seg_deref v k in Val (x, y)) = Val (L "b%20c", L "").
Proof. vm_compute. reflexivity. Qed.
(** Full statement for url_view and const url: the same for every URL. *)
Theorem C23_view_segments_bidirectional_partial :
  forall (d : bool) (v : view) (a : uri), shown v a -> uri_query a = None -> let parse := seg_parse_view d v in
    bidirectional (seg_begin v parse) (seg_end v parse) (seg_incr d v parse) (seg_decr d v parse)
      (seg_deref v) (seg_eq d) (segments_of (uri_path a)).
Proof. exact view_bidirectional. Qed.
Print Assumptions C23_view_segments_bidirectional_partial.
Example C23_view_example :
  let v := example_view (L "a/b") in let parse := seg_parse_view true v in
  (let! e := seg_end v parse in let! i := seg_decr true v parse e in let! j := seg_decr true v parse i in
   let! x := seg_deref v i in let! y := seg_deref v j in Val (y, x)) = Val (L "a", L "b").
Proof. vm_compute. reflexivity. Qed.
(** With a query, the last segment found from the end contains the query, and
    the position after it is not the end. *)
Theorem C23_view_refuted :
  exists v e i j, make_url_view true (L "/a/b?q") = Val v /\ seg_end v (seg_parse_view true v) = Val e /\
    seg_decr true v (seg_parse_view true v) e = Val i /\ seg_deref v i = Val (L "b?q") /\
    seg_incr true v (seg_parse_view true v) i = Val j /\ seg_eq true j e = Val false.
Proof. do 4 eexists. split; [vm_compute; reflexivity|]. split; [vm_compute; reflexivity|]. split; [vm_compute; reflexivity|]. split; [vm_compute; reflexivity|]. split; [vm_compute; reflexivity|]. vm_compute; reflexivity. Qed.
Print Assumptions C23_view_refuted.

(** ** C24, C25: parameters *)

(** [params_of a]: the parameters as the library delimits them; [iterable a]:
    there is no fragment, or the last parameter is written with "=".
    Full statement: the same for every URL, with the usual parameters. *)
Theorem C24_params_partial :
  forall (d : bool) (v : view) (a : uri), shown v a -> iterable a ->
    params_size v = length (params_of a) /\
    forall fuel, length (params_of a) < fuel -> par_all d v fuel = Val (params_of a).
Proof. exact iterates_params. Qed.
Print Assumptions C24_params_partial.
Example C24_example : par_all true (example_view text1) 9 = Val [(L "x", L "1"); (L "y", L "2"); (L "x", L "3")].
Proof. vm_compute. reflexivity. Qed.
(** They are the usual parameters exactly if all but the last are written with "=". *)
Theorem C24_usual_params_exactly :
  forall (a : uri) (q : str), uri_query a = Some q ->
    (params_of a = map plain (form_params q) /\ raw_params a = form_params q) <-> all_but_last_valued (form_params q).
Proof. exact params_usual. Qed.
Print Assumptions C24_usual_params_exactly.
Example C24_usual_example : all_but_last_valued (form_params (L "a=1&b=&c")) /\ ~ all_but_last_valued (form_params (L "a&b=1")).
Proof.
  split.
  - apply (proj1 (C24_usual_params_exactly (mk_uri None None [] (Some (L "a=1&b=&c")) None) _ eq_refl)). split; reflexivity.
  - intros H. apply (H [] (L "a", None) [(L "b", Some (L "1"))] eq_refl); [discriminate|reflexivity].
Qed.
(** A fragment and a last parameter without "=": iterating never ends well. *)
Theorem C24_params_never_end :
  forall (d : bool) (v : view) (a : uri), shown v a -> ~ iterable a -> forall fuel l, par_all d v fuel <> Val l.
Proof. exact params_never_end. Qed.
Print Assumptions C24_params_never_end.
Definition fragmented : uri := mk_uri None None [] (Some (L "a")) (Some (L "c")).
Example C24_never_end_example : shown (example_view (L "?a#c")) fragmented /\ ~ iterable fragmented.
Proof.
  split.
  - apply (shown_view _ _ true); [|vm_compute; reflexivity].
    unfold wf, fragmented. cbn [uri_scheme uri_authority uri_path uri_query uri_fragment]. repeat split; try discriminate.
    + left. reflexivity.
    + intros q E. injection E as <-. apply pt_char; [reflexivity|constructor].
    + intros q E. injection E as <-. apply pt_char; [reflexivity|constructor].
  - intros [H|[H|(f & k & x & H)]]; try discriminate. cbn in H. destruct f as [|y [|z f]]; discriminate.
Qed.
Theorem C24_fragment_refuted :
  exists v, make_url_view true (L "?a#c") = Val v /\ encoded_query true v = Val (L "a") /\ par_all true v 9 = Abort.
Proof. eexists. split; [vm_compute; reflexivity|]. vm_compute. auto. Qed.
Print Assumptions C24_fragment_refuted.
Theorem C24_ampersand_refuted :
  exists v, make_url_view true (L "?a&b=1") = Val v /\ encoded_query true v = Val (L "a&b=1") /\
    params_size v = 1 /\ par_all true v 9 = Val [(L "a&b", L "1")].
Proof. eexists. split; [vm_compute; reflexivity|]. vm_compute. auto. Qed.
Print Assumptions C24_ampersand_refuted.

(** ++ always works, and -- exactly undoes it if the key does not contain "&"
    and is not the first; on the first it keeps the sizes of the parameter it
    comes from; on a key with "&" it stops inside the key.
    Full statement: -- undoes ++ everywhere. *)
Theorem C25_params_bidirectional_partial :
  forall (d : bool) (v : view) (a : uri), shown v a -> iterable a ->
    exists pos, positions (par_begin d v) (par_end d v) (par_incr d v) (par_deref d v) (par_eq d) (params_of a) pos /\
    forall i k o, nth_error (raw_params a) i = Some (k, o) ->
      (~ In "&"%char k -> 0 < i -> par_decr d v (pos (S i)) = Val (pos i)) /\
      (~ In "&"%char k -> i = 0 ->
         par_decr d v (pos 1) = Val (mk_par_it (pi_off (pos 0)) (pi_nk (pos 1)) (pi_nv (pos 1)))) /\
      (In "&"%char k -> forall it, par_decr d v (pos (S i)) = Val it -> pi_off it <> pi_off (pos i)).
Proof. exact params_bidirectional. Qed.
Print Assumptions C25_params_bidirectional_partial.
Example C25_example :
  let v := example_view text1 in
  (let! e := par_end true v in let! i := par_decr true v e in let! j := par_decr true v i in
   let! x := par_deref true v i in let! y := par_deref true v j in Val (x, y)) = Val ((L "x", L "3"), (L "y", L "2")).
Proof. vm_compute. reflexivity. Qed.
(** The only parameter, found from the end, cannot be read. *)
Theorem C25_first_parameter_refuted :
  forall d : bool, exists v e i, make_url_view true (L "?a=1") = Val v /\ par_end d v = Val e /\ par_decr d v e = Val i /\
    par_deref d v i = if d then Abort else UB.
Proof. intros []; do 3 eexists; (split; [vm_compute; reflexivity|]); (split; [vm_compute; reflexivity|]); (split; [vm_compute; reflexivity|]); vm_compute; reflexivity. Qed.
Print Assumptions C25_first_parameter_refuted.
(** The first of two parameters reads wrongly when found from the second. *)
Theorem C25_stale_sizes_refuted :
  exists v b i j, make_url_view true (L "?abc=1&d=2") = Val v /\ par_begin true v = Val b /\ par_deref true v b = Val (L "abc", L "1") /\
    par_incr true v b = Val i /\ par_decr true v i = Val j /\ par_deref false v j = Val (L "a", L "c").
Proof. do 4 eexists. split; [vm_compute; reflexivity|]. split; [vm_compute; reflexivity|]. split; [vm_compute; reflexivity|]. split; [vm_compute; reflexivity|]. split; [vm_compute; reflexivity|]. vm_compute; reflexivity. Qed.
Print Assumptions C25_stale_sizes_refuted.
Theorem C25_ampersand_refuted :
  exists v e i, make_url_view true (L "?a=1&b&c=2") = Val v /\ par_all true v 9 = Val [(L "a", L "1"); (L "b&c", L "2")] /\
    par_end true v = Val e /\ par_decr true v e = Val i /\ par_deref true v i = Val (L "c", L "2").
Proof. do 3 eexists. split; [vm_compute; reflexivity|]. split; [vm_compute; reflexivity|]. split; [vm_compute; reflexivity|]. split; [vm_compute; reflexivity|]. vm_compute; reflexivity. Qed.
Print Assumptions C25_ampersand_refuted.

(** ** C26: lookup *)

(** [ds]: the decoded parameters; [lookup]: the value of the first with that
    key; [occurrences]: their number. *)
Theorem C26_lookup_is_a_multimap :
  forall (d : bool) (v : view) (a : uri), shown v a -> iterable a ->
    exists pos ds, positions (par_begin d v) (par_end d v) (par_incr d v) (par_deref d v) (par_eq d) (params_of a) pos /\
      decoded_params (params_of a) ds /\
    forall fuel key, length ds < fuel ->
      contains d v fuel key = Val (match lookup key ds with Some _ => true | None => false end) /\
      count d v fuel key = Val (occurrences key ds) /\
      index d v fuel key = Val (match lookup key ds with Some x => x | None => [] end) /\
      at_ d v fuel key = match lookup key ds with Some x => Val x | None => Exn out_of_range end /\
      exists j, find d v fuel key = Val (pos j) /\ j <= length ds /\
        (lookup key ds = None -> j = length ds) /\ (forall x, lookup key ds = Some x -> nth_error ds j = Some (key, x)) /\
        forall m e, m < j -> nth_error ds m = Some e -> fst e <> key.
Proof. exact params_multimap. Qed.
Print Assumptions C26_lookup_is_a_multimap.
Theorem C26_contains_iff_counted :
  forall (key : str) (ds : list (str * str)), 0 < occurrences key ds <-> lookup key ds <> None.
Proof. exact count_contains. Qed.
Print Assumptions C26_contains_iff_counted.
Example C26_example :
  let w := example_view (L "?a%20b=1%2F&c=&a%20b=2&d") in
  count true w 9 (L "a b") = Val 2 /\ at_ true w 9 (L "a b") = Val (L "1/") /\ contains true w 9 (L "d") = Val true /\
  index true w 9 (L "z") = Val [] /\ at_ true w 9 (L "z") = Exn out_of_range.
Proof. vm_compute. repeat split. Qed.
