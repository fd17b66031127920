(** * PropertiesElems: the elements of the segment and parameter ranges

    [seg_string v it], [par_strings d v it]: the decoded segment, and the decoded
    key and value, at an iterator (ModelElems.v).  [bidirectional], [positions]: a
    range with the given elements (SpecIter.v).  [well_encoded a]: every segment is
    a sequence of allowed characters and escapes (SpecElems.v). *)

From Verif Require Import Base ModelChar ModelParts ModelView ModelUrl ModelElems SpecChar SpecGrammar SpecLink SpecView SpecStore SpecUrl SpecHistory
  SpecSetters SpecIter SpecSegments SpecMixed SpecElems ProofsChar ProofsUrl ProofsIter ProofsSetters ProofsSegments ProofsMixed ProofsElems PropertiesSegments.

(** ** C48: decoded segments *)

(** Iterating over the strings gives the decoded segments.  Second clause: the
    iterators of url_view, which work without a query only (C22). *)
Theorem C48_segment_strings :
  forall (d : bool) (v : view) (a : uri), shown v a -> well_encoded a ->
    exists ts, decoded_segments (the_segments a) ts /\
      (let parse := seg_parse_base d v in
       bidirectional (seg_begin v parse) (seg_end v parse) (seg_incr d v parse) (seg_decr d v parse) (seg_string v) (seg_eq d) ts) /\
      (uri_query a = None -> let parse := seg_parse_view d v in
       bidirectional (seg_begin v parse) (seg_end v parse) (seg_incr d v parse) (seg_decr d v parse) (seg_string v) (seg_eq d) ts).
Proof. exact segment_strings. Qed.
Print Assumptions C48_segment_strings.

(** Which URLs are well-encoded: those whose path is a path of RFC 3986; among
    the accepted ones, all with an authority, all with a relative path, and all
    that conform to RFC 3986. *)
Theorem C48_well_encoded_paths :
  forall a : uri, (well_encoded a <-> path_text HEXDIG_UPPER (uri_path a)) /\
    (wf accepted a -> uri_authority a <> None -> well_encoded a) /\
    (wf accepted a -> (forall r, uri_path a <> "/"%char :: r) -> well_encoded a) /\
    (wf common a -> well_encoded a).
Proof. intros a. exact (conj (well_encoded_text a) (conj (authority_encoded a) (conj (relative_encoded a) (common_encoded a)))). Qed.
Print Assumptions C48_well_encoded_paths.

(** Modifiers and edits keep paths well-encoded. *)
Theorem C48_modifiers_keep_it :
  forall (o : op) (a a' : uri), good_path o -> well_encoded a -> does o a a' -> well_encoded a'.
Proof. exact does_encoded. Qed.
Print Assumptions C48_modifiers_keep_it.
Theorem C48_edits_keep_it :
  forall (e : edit) (a : uri), in_range e a -> text_valid e -> well_encoded a -> well_encoded (with_segments (list_edit e (the_segments a)) a).
Proof. exact edit_encoded. Qed.
Print Assumptions C48_edits_keep_it.
Theorem C48_histories :
  forall (d : bool) (u0 u : url), fresh u0 -> history (fun o => keeps_counts o /\ good_path o) d u0 u ->
    (forall a, rep (part_texts a) u0 -> well_encoded a) ->
    exists a, rep (part_texts a) u /\ shown (view_of u) a /\ well_encoded a.
Proof. exact history_encoded. Qed.
Print Assumptions C48_histories.
Example C48_history_example :
  exists u, history (fun o => keeps_counts o /\ good_path o) true (made true ex_text) u /\
    (forall a, rep (part_texts a) (made true ex_text) -> well_encoded a) /\ encoded_url (view_of u) = Val (L "http://x/a/b?q#f").
Proof.
  destruct (run (plenty true) (Set_host (L "x")) (made true ex_text)) as [r u] eqn:E. exists u. split; [|split].
  - assert (C : clean_origin (Set_host (L "x"))) by (intros a a' (x & y & sc & oa & _ & H & _); discriminate H).
    eapply (history_call _ _ _ (plenty true) (Set_host (L "x"))); [constructor| |exact (plenty_ok true)|reflexivity|exact I|intros a _ H; exact H|exact E].
    split; [right; split; [reflexivity|split; [reflexivity|exact C]]|exact C].
  - intros a R. destruct C28_covered_example as (v & Ev & [R' _ _ _]). unfold made in R. rewrite Ev in R.
    assert (P : uri_path a = L "/a/b") by exact (f_equal (fun l => nth 5 l []) (rep_fun _ _ _ R R')).
    unfold well_encoded, the_segments. rewrite P. repeat constructor; apply check_spec; vm_compute; reflexivity.
  - vm_compute in E. injection E as <- <-. vm_compute. reflexivity.
Qed.

Definition ex_seg_uri : uri := mk_uri None (Some (mk_authority None (L "h") None)) (L "/a%20b//%2F") None None.
Definition ex_seg_view : view := match make_url_view true (L "//h/a%20b//%2F") with Val v => v | _ => mk_view [] (u_pt url0) end.
Example C48_example :
  make_url_view true (L "//h/a%20b//%2F") = Val ex_seg_view /\ recompose ex_seg_uri = L "//h/a%20b//%2F" /\
  (let! i := seg_begin ex_seg_view (seg_parse_base true ex_seg_view) in seg_string ex_seg_view i) = Val (L "a b") /\
  Forall2 decodes (the_segments ex_seg_uri) [L "a b"; []; L "/"].
Proof.
  split; [vm_compute; reflexivity|]. split; [reflexivity|]. split; [vm_compute; reflexivity|].
  assert (D : forall s t, pct_decode s = Val t -> upper_text k_pchar s -> decodes s t).
  { intros s t E H. destruct (decode_upper _ _ H) as (t' & _ & E' & D & _). rewrite E in E'. injection E' as ->. exact D. }
  repeat constructor; try reflexivity; try discriminate; apply D; try reflexivity; apply check_spec; reflexivity.
Qed.

(** Without an authority the parser accepts any character after the first "/"
    (C03).  The string of such a segment is read from beyond the end of the URL. *)
Theorem C48_lax_path_refuted :
  exists v p, make_url_view true (L "/%") = Val v /\ seg_begin v (seg_parse_base true v) = Val p /\
    seg_deref v p = Val (L "%") /\ seg_string v p = UB.
Proof. do 2 eexists. split; [vm_compute; reflexivity|]. split; [vm_compute; reflexivity|]. split; vm_compute; reflexivity. Qed.
Print Assumptions C48_lax_path_refuted.
Theorem C48_lax_path_in_url_refuted :
  exists u p, make_url (plenty true) (L "/%") = Val u /\ position true u 0 = Val p /\ seg_string (view_of u) p = UB.
Proof. do 2 eexists. split; [vm_compute; reflexivity|]. split; vm_compute; reflexivity. Qed.
Print Assumptions C48_lax_path_in_url_refuted.
(** Or from what follows the path. *)
Theorem C48_lax_path_reads_on_refuted :
  exists v p, make_url_view true (L "/%#44") = Val v /\ seg_begin v (seg_parse_base true v) = Val p /\
    seg_deref v p = Val (L "%") /\ exists c, seg_string v p = Val [c] /\ c <> "%"%char.
Proof.
  do 2 eexists. split; [vm_compute; reflexivity|]. split; [vm_compute; reflexivity|]. split; [vm_compute; reflexivity|].
  eexists. split; [vm_compute; reflexivity|discriminate].
Qed.
Print Assumptions C48_lax_path_reads_on_refuted.

(** string() at the end of the segments is empty and reads nothing. *)
Theorem C48_string_at_end :
  forall (v : view) (parse : nat -> outcome seg_it) (p : seg_it), seg_end v parse = Val p -> seg_string v p = Val [].
Proof. exact end_string. Qed.
Print Assumptions C48_string_at_end.
Example C48_end_example : exists v p, make_url_view true (L "/a") = Val v /\ seg_end v (seg_parse_view true v) = Val p /\ si_off p = 2 /\ rdc v 2 = UB.
Proof. do 2 eexists. split; [vm_compute; reflexivity|]. split; [vm_compute; reflexivity|]. split; vm_compute; reflexivity. Qed.

(** What insert and replace store is what string() returns. *)
Theorem C48_insert_then_read :
  forall (E : env) (u : url) (a : uri) (i : nat) (s : str) (p : seg_it) (u' : url),
    env_ok E -> editable (dbg E) u a -> in_range (Insert i s) a -> run_edit E (Insert i s) u = (Val p, u') ->
    exists q, position (dbg E) u' i = Val q /\ seg_string (view_of u') q = Val s.
Proof. exact insert_then_read. Qed.
Print Assumptions C48_insert_then_read.
Theorem C48_replace_then_read :
  forall (E : env) (u : url) (a : uri) (i : nat) (s : str) (p : seg_it) (u' : url),
    env_ok E -> editable (dbg E) u a -> in_range (Replace i s) a -> run_edit E (Replace i s) u = (Val p, u') ->
    exists q, position (dbg E) u' i = Val q /\ seg_string (view_of u') q = Val s.
Proof. exact replace_then_read. Qed.
Print Assumptions C48_replace_then_read.
Example C48_insert_example :
  editable true (made true ex_text) ex_uri /\ in_range (Insert 1 (L "x/ %")) ex_uri /\
  exists p u', run_edit (plenty true) (Insert 1 (L "x/ %")) (made true ex_text) = (Val p, u') /\
    encoded_url (view_of u') = Val (L "http://h/a/x%2F%20%25/b?q#f").
Proof.
  split; [destruct C28_covered_example as (u & E & H); unfold made; rewrite E; exact H|]. split; [split; [cbn; lia|left; reflexivity]|].
  do 2 eexists. split; [vm_compute; reflexivity|]. vm_compute; reflexivity.
Qed.

(** ** C49: decoded keys and values *)

Theorem C49_param_strings :
  forall (d : bool) (v : view) (a : uri), shown v a -> iterable a ->
    exists pos ds, positions (par_begin d v) (par_end d v) (par_incr d v) (par_deref d v) (par_eq d) (params_of a) pos /\
      decoded_params (params_of a) ds /\
      positions (par_begin d v) (par_end d v) (par_incr d v) (par_strings d v) (par_eq d) ds pos.
Proof. exact param_strings. Qed.
Print Assumptions C49_param_strings.
Example C49_example :
  exists v b n, make_url_view true (L "x?a%20b=%2F&c=#f") = Val v /\ par_begin true v = Val b /\ par_strings true v b = Val (L "a b", L "/") /\
    par_incr true v b = Val n /\ par_strings true v n = Val (L "c", []).
Proof.
  do 3 eexists. split; [vm_compute; reflexivity|]. split; [vm_compute; reflexivity|]. split; [vm_compute; reflexivity|].
  split; [vm_compute; reflexivity|]. vm_compute; reflexivity.
Qed.

(** ** C50: default-constructed ranges *)

(** They are empty: size() is 0, begin() equals end(), and every lookup finds
    nothing. *)
Theorem C50_default_ranges_are_empty :
  forall (d : bool) (parse : view -> nat -> outcome seg_it) (fuel : nat) (key : str),
    range_segments None = 0 /\ range_params None = 0 /\
    (exists p q, range_seg parse None false = Val p /\ range_seg parse None true = Val q /\ seg_eq d p q = Val true /\ seg_eq d p seg_it0 = Val true) /\
    (exists p q, range_par d None false = Val p /\ range_par d None true = Val q /\ par_eq d p q = Val true /\ par_eq d p par_it0 = Val true) /\
    range_contains d None fuel key = Val false /\ range_count d None fuel key = Val 0 /\
    (exists p q, range_find d None fuel key = Val p /\ range_par d None true = Val q /\ par_eq d p q = Val true) /\
    range_index d None fuel key = Val [] /\ range_at d None fuel key = Exn out_of_range.
Proof. exact null_ranges. Qed.
Print Assumptions C50_default_ranges_are_empty.
Example C50_example :
  range_segments (Some ex_seg_view) = 3 /\ range_count true None 9 (L "k") = Val 0 /\
  exists v, make_url_view true (L "?k=v") = Val v /\ range_count true (Some v) 9 (L "k") = Val 1 /\ range_at true (Some v) 9 (L "k") = Val (L "v").
Proof. split; [vm_compute; reflexivity|]. split; [reflexivity|]. eexists. split; [vm_compute; reflexivity|]. split; vm_compute; reflexivity. Qed.
(** Their iterators must not be used; an assertion detects this for parameters,
    but not for segments. *)
Theorem C50_default_iterators_refuted :
  forall parse, range_seg_incr true parse None seg_it0 = UB /\ range_seg_deref None seg_it0 = Val [] /\
    range_par_incr true None par_it0 = Abort /\ range_par_deref true None par_it0 = Abort.
Proof. intros parse. repeat split. Qed.
Print Assumptions C50_default_iterators_refuted.

(** ** C51: iterators that stay valid *)

(** Segments before the place of an edit keep their iterators. *)
Theorem C51_edits_keep_earlier_iterators :
  forall (E : env) (u : url) (a : uri) (e : edit) (p : seg_it) (u' : url) (j : nat),
    env_ok E -> editable (dbg E) u a -> in_range e a -> run_edit E e u = (Val p, u') -> j < edit_at e ->
    still_there (dbg E) u u' j.
Proof. exact edit_keeps_iterators. Qed.
Print Assumptions C51_edits_keep_earlier_iterators.
(** A modifier that leaves the path alone moves all positions by the amount by
    which the text before the path grows or shrinks. *)
Theorem C51_modifiers_shift_iterators :
  forall (E : env) (o : op) (u : url) (a : uri) (u' : url) (d : bool),
    env_ok E -> arg_ok o -> usable u a -> ~ breaks (dbg E) o a -> touches_path o = false -> clean_origin o ->
    run E o u = (Val tt, u') ->
    forall j, j <= length (the_segments a) ->
    exists p p', position d u j = Val p /\ position d u' j = Val p' /\
      si_off p' + before_path u = si_off p + before_path u' /\ si_n p' = si_n p /\
      (j < length (the_segments a) -> exists s, seg_deref (view_of u) p = Val s /\ seg_deref (view_of u') p' = Val s).
Proof. exact call_shifts_iterators. Qed.
Print Assumptions C51_modifiers_shift_iterators.
(** So the setters of query and fragment invalidate no segment iterator. *)
Theorem C51_query_and_fragment_keep_iterators :
  forall (E : env) (o : op) (u : url) (a : uri) (u' : url) (d : bool),
    env_ok E -> arg_ok o -> usable u a -> ~ breaks (dbg E) o a -> after_path o = true -> run E o u = (Val tt, u') ->
    before_path u' = before_path u /\ position d u' (length (the_segments a)) = position d u (length (the_segments a)) /\
    forall j, j < length (the_segments a) -> still_there d u u' j.
Proof. exact query_keeps_iterators. Qed.
Print Assumptions C51_query_and_fragment_keep_iterators.
Example C51_hypotheses :
  usable (made true ex_text) ex_uri /\ after_path (Set_query (L "much longer")) = true /\ ~ breaks true (Set_query (L "much longer")) ex_uri /\
  touches_path (Set_scheme (L "ftp")) = false /\ clean_origin (Set_scheme (L "ftp")).
Proof.
  split; [destruct C28_covered_example as (u & E & [H1 H2 H3 H4]); unfold made; rewrite E; split; [exact H1|exact H2|exact H3|discriminate]|].
  split; [reflexivity|]. split; [intros H; exact H|]. split; [reflexivity|]. intros a a' (x & y & sc & oa & _ & H & _). discriminate H.
Qed.
Example C51_example :
  editable true (made true ex_text) ex_uri /\ in_range (Replace 1 (L "xyz")) ex_uri /\
  (exists p u', run_edit (plenty true) (Replace 1 (L "xyz")) (made true ex_text) = (Val p, u')) /\
  (exists u', run (plenty true) (Set_query (L "much longer")) (made true ex_text) = (Val tt, u')).
Proof.
  split; [destruct C28_covered_example as (u & E & H); unfold made; rewrite E; exact H|]. split; [split; [cbn; lia|left; reflexivity]|].
  split; do 2 try eexists; vm_compute; reflexivity.
Qed.
(** Elsewhere an old iterator finds another text: here after set_scheme. *)
Theorem C51_stale_iterator_refuted :
  exists u p u', make_url (plenty true) (L "s://host/abc/def") = Val u /\ position true u 1 = Val p /\
    seg_deref (view_of u) p = Val (L "def") /\ run (plenty true) (Set_scheme (L "abc")) u = (Val tt, u') /\
    seg_deref (view_of u') p = Val (L "bc/d").
Proof.
  do 3 eexists. split; [vm_compute; reflexivity|]. split; [vm_compute; reflexivity|]. split; [vm_compute; reflexivity|].
  split; [vm_compute; reflexivity|]. vm_compute; reflexivity.
Qed.
Print Assumptions C51_stale_iterator_refuted.
