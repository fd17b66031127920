(** * PropertiesLax: C111 *)

From Verif Require Import Base ModelChar ModelParse ModelParts ModelView ModelUrl ModelElems SpecChar SpecGrammar SpecLink SpecView SpecStore SpecUrl SpecHistory
  SpecSetters SpecIter SpecSegments SpecElems SpecLax ProofsLax PropertiesSegments.

(** ** C111: the string of a segment with lower-case, malformed or cut escapes *)

(** Without an authority "%2f" is accepted, but decoded to the byte 31, not to
    the "/" that RFC 3986 says it stands for. *)
Theorem C111_lower_case_refuted :
  exists v p, make_url_view true (L "/%2f") = Val v /\ seg_begin v (seg_parse_base true v) = Val p /\
    seg_deref v p = Val (L "%2f") /\ rfc_text k_pchar (L "%2f") /\ decodes (L "%2f") (L "/") /\ seg_string v p = Val [ascii_of_nat 31].
Proof.
  do 2 eexists. split; [vm_compute; reflexivity|]. split; [vm_compute; reflexivity|]. split; [vm_compute; reflexivity|].
  split; [|split; [|vm_compute; reflexivity]].
  - apply (pt_esc _ _ "2" "f" []); [reflexivity|reflexivity|constructor].
  - exact (dec_esc "2" "f" 2 15 [] [] eq_refl eq_refl dec_nil).
Qed.
Print Assumptions C111_lower_case_refuted.
(** In a url the escape that is cut by the end takes the terminating zero for a
    digit: the string of "%4" is "?". *)
Theorem C111_cut_refuted :
  exists u p, make_url (plenty true) (L "/%4") = Val u /\ position true u 0 = Val p /\ seg_string (view_of u) p = Val (L "?").
Proof. do 2 eexists. split; [vm_compute; reflexivity|]. split; vm_compute; reflexivity. Qed.
Print Assumptions C111_cut_refuted.

(** What string() returns for every segment of every URL.  [k] is the number of
    characters that the last escape lacks; they are taken from the memory behind
    the segment: the rest of the URL, then what is there.  Undefined exactly if
    there are no such bytes or they were never written. *)
Theorem C111_string_exact_partial :
  forall (d : bool) (v : view) (a : uri) parse pos (i : nat) (s : str) (k : nat), shown v a ->
    parse = seg_parse_base d v \/ uri_query a = None /\ parse = seg_parse_view d v ->
    positions (seg_begin v parse) (seg_end v parse) (seg_incr d v parse) (seg_deref v) (seg_eq d) (the_segments a) pos ->
    nth_error (the_segments a) i = Some s -> missing s k ->
    exists before after rest, stands a i before s after /\ v_mem v = map Some (before ++ s ++ after) ++ rest /\
      ((exists cs t, reads (map Some after ++ rest) k cs /\ lenient (s ++ cs) t /\ seg_string v (pos i) = Val t) \/
       ((forall cs, ~ reads (map Some after ++ rest) k cs) /\ seg_string v (pos i) = UB)).
Proof. exact segment_string_exact. Qed.
Print Assumptions C111_string_exact_partial.
(** Some number is missing from every text. *)
Theorem C111_missing_partial :
  forall s, exists k, missing s k /\ forall k', missing s k' -> k' = k.
Proof. intros s. destruct (missing_total s) as (k & K). exists k. split; [exact K|exact (missing_fun s k K)]. Qed.
Print Assumptions C111_missing_partial.

(** Nothing is missing: the string depends on the segment only ... *)
Theorem C111_whole_partial :
  forall (d : bool) (v : view) (a : uri) parse pos (i : nat) (s t : str), shown v a ->
    parse = seg_parse_base d v \/ uri_query a = None /\ parse = seg_parse_view d v ->
    positions (seg_begin v parse) (seg_end v parse) (seg_incr d v parse) (seg_deref v) (seg_eq d) (the_segments a) pos ->
    nth_error (the_segments a) i = Some s -> lenient s t -> seg_string v (pos i) = Val t.
Proof. exact segment_string_whole. Qed.
Print Assumptions C111_whole_partial.
(** ... and is the decoded segment if the escapes are upper-case. *)
Theorem C111_upper_case_partial :
  forall (s t : str) (k : comp), upper_text k s -> decodes s t -> lenient s t.
Proof. exact lenient_decodes. Qed.
Print Assumptions C111_upper_case_partial.

(** A url_view: undefined exactly if the text of the URL ends before the escape
    does. *)
Theorem C111_view_partial :
  forall (d d' : bool) (v : view) (a : uri) parse pos (i : nat) (s : str) (k : nat), wf accepted a -> make_url_view d' (recompose a) = Val v ->
    parse = seg_parse_base d v \/ uri_query a = None /\ parse = seg_parse_view d v ->
    positions (seg_begin v parse) (seg_end v parse) (seg_incr d v parse) (seg_deref v) (seg_eq d) (the_segments a) pos ->
    nth_error (the_segments a) i = Some s -> missing s k ->
    exists before after, stands a i before s after /\ recompose a = before ++ s ++ after /\
      (k <= length after -> exists t, lenient (s ++ firstn k after) t /\ seg_string v (pos i) = Val t) /\
      (length after < k -> seg_string v (pos i) = UB).
Proof. exact segment_string_view. Qed.
Print Assumptions C111_view_partial.
(** A url: one missing character is always there, at worst the zero. *)
Theorem C111_url_partial :
  forall (d : bool) (u : url) (a : uri) pos (i : nat) (s : str), rep (part_texts a) u -> terminated u -> wf_components a -> right_counts (view_of u) a ->
    (let v := view_of u in let parse := seg_parse_base d v in
     positions (seg_begin v parse) (seg_end v parse) (seg_incr d v parse) (seg_deref v) (seg_eq d) (the_segments a) pos) ->
    nth_error (the_segments a) i = Some s -> missing s 1 ->
    exists before after t, stands a i before s after /\ lenient (s ++ [hd NUL after]) t /\ seg_string (view_of u) (pos i) = Val t.
Proof. exact segment_string_url. Qed.
Print Assumptions C111_url_partial.

(** Among the accepted texts only a first segment "%" or "%x" lacks something. *)
Theorem C111_cut_segments_partial :
  forall (a : uri) (i : nat) (s : str) (k : nat), wf accepted a -> nth_error (the_segments a) i = Some s -> missing s k -> k <> 0 ->
    i = 0 /\ uri_authority a = None /\ (s = L "%" \/ exists x, s = "%"%char :: [x]).
Proof. exact cut_segments. Qed.
Print Assumptions C111_cut_segments_partial.

(** The first segments "%2", "%" and "%zz" of three URLs: the string of the first
    takes in the "/", that of the second the "#4". *)
Definition lax (path : string) : uri := mk_uri None None (L path) None (Some (L "4")).
Definition lax_view (a : uri) : view := match make_url_view true (recompose a) with Val v => v | _ => mk_view [] (mk_parts [] 0 0 host_none) end.
Definition first_string (v : view) : outcome str := let! i := seg_begin v (seg_parse_base true v) in seg_string v i.
Example C111_example :
  (wf accepted (lax "/%2/x") /\ make_url_view true (L "/%2/x#4") = Val (lax_view (lax "/%2/x")) /\ the_segments (lax "/%2/x") = [L "%2"; L "x"] /\
   missing (L "%2") 1 /\ stands (lax "/%2/x") 0 (L "/") (L "%2") (L "/x#4") /\ lenient (L "%2" ++ L "/") [ascii_of_nat 31] /\
   first_string (lax_view (lax "/%2/x")) = Val [ascii_of_nat 31]) /\
  (missing (L "%") 2 /\ lenient (L "%" ++ L "#4") [ascii_of_nat 244] /\ first_string (lax_view (lax "/%")) = Val [ascii_of_nat 244]) /\
  (missing (L "%zz") 0 /\ lenient (L "%zz") [ascii_of_nat 239] /\ first_string (lax_view (lax "/%zz")) = Val [ascii_of_nat 239]).
Proof.
  split; [|split].
  - split.
    { split; [discriminate|]. split; [discriminate|]. split; [|split; [discriminate|]].
      - right. left. right. exists "%"%char, (L "2/x"). split; [reflexivity|]. split; [discriminate|]. unfold path_text. cbn. do 3 (apply pt_char; [reflexivity|]). constructor.
      - intros f E. injection E as <-. apply pt_char; [reflexivity|constructor]. }
    split; [vm_compute; reflexivity|]. split; [reflexivity|]. split; [apply miss_one|]. split.
    { split; [reflexivity|]. exists [], (L "/"), (L "/x"), (L "#4"). repeat (split; [reflexivity|]). split; [|split; [right; eexists; reflexivity|reflexivity]].
      intros [H|[H|[]]]; discriminate H. }
    split; [exact (len_esc "2" "/" _ _ len_nil)|vm_compute; reflexivity].
  - split; [apply miss_two|]. split; [exact (len_esc "#" "4" _ _ len_nil)|vm_compute; reflexivity].
  - split; [apply miss_esc; constructor|]. split; [exact (len_esc "z" "z" _ _ len_nil)|vm_compute; reflexivity].
Qed.
