(** * PropertiesCostIter: iterating and looking up take linear time

    [k_seg_all] etc. are the loops of ModelView with their comparisons, readings
    and movements counted (ModelCostIter.v).  [takes k r least most]: [k] gives
    [r] in [least] to [most] steps (SpecCostIter.v).  [shown v a]: [v] shows a
    URL with components [a]; [iterable a]: its parameters can be iterated over
    (SpecIter.v; C24, C63).  [fuel] only bounds the number of iterations. *)

From Verif Require Import Base ModelChar ModelParts ModelView ModelUrl ModelCost ModelCostIter SpecChar SpecGrammar SpecLink SpecView SpecStore SpecUrl SpecHistory
  SpecIter SpecCostIter ProofsIter ProofsCostIter PropertiesIter.

(** ** C92: no url makes iterating or looking up slow *)

(** Going through the segments of a url, forwards and backwards ... *)
Theorem C92_segments :
  forall (d : bool) (v : view) (a : uri) (fuel : nat), shown v a -> length (segments_of (uri_path a)) < fuel ->
    takes (k_seg_all d v (k_seg_parse_base d v) fuel) (Val (segments_of (uri_path a)))
      (length (uri_path a)) (18 * length (uri_path a) + 31) /\
    takes (k_seg_all_back d v (k_seg_parse_base d v) fuel) (Val (rev (segments_of (uri_path a))))
      0 (23 * length (uri_path a) + 30).
Proof. exact segments_linear. Qed.
Print Assumptions C92_segments.
(** ... and of a url_view without query (with one, C22: it never ends). *)
Theorem C92_view_segments :
  forall (d : bool) (v : view) (a : uri) (fuel : nat), shown v a -> uri_query a = None -> length (segments_of (uri_path a)) < fuel ->
    takes (k_seg_all d v (k_seg_parse_view d v) fuel) (Val (segments_of (uri_path a)))
      (length (uri_path a)) (18 * length (uri_path a) + 31) /\
    takes (k_seg_all_back d v (k_seg_parse_view d v) fuel) (Val (rev (segments_of (uri_path a))))
      0 (23 * length (uri_path a) + 30).
Proof. exact view_segments_linear. Qed.
Print Assumptions C92_view_segments.
(** Going through the parameters. *)
Theorem C92_params :
  forall (d : bool) (v : view) (a : uri) (fuel : nat), shown v a -> iterable a -> length (params_of a) < fuel ->
    takes (k_par_all d v fuel) (Val (params_of a)) (query_length a) (63 * query_length a + 38).
Proof. exact params_linear. Qed.
Print Assumptions C92_params.
(** Looking up: the bound does not depend on the key that is looked for. *)
Theorem C92_lookup :
  forall (d : bool) (v : view) (a : uri) (fuel : nat) (key : str), shown v a -> iterable a -> length (params_of a) < fuel ->
    takes (k_contains d v fuel key) (contains d v fuel key) 0 (63 * query_length a + 38) /\
    takes (k_count d v fuel key) (count d v fuel key) 0 (63 * query_length a + 38) /\
    takes (k_find d v fuel key) (find d v fuel key) 0 (63 * query_length a + 38) /\
    takes (k_index d v fuel key) (index d v fuel key) 0 (74 * query_length a + 57) /\
    takes (k_at d v fuel key) (at_ d v fuel key) 0 (74 * query_length a + 57).
Proof. exact lookup_linear. Qed.
Print Assumptions C92_lookup.
Example C92_example :
  let v := example_view text1 in
  k_seg_all true v (k_seg_parse_base true v) 9 = (Val [L "a"; L ""; L "b%20c"; L ""], 92) /\
  fst (k_seg_all_back true v (k_seg_parse_base true v) 9) = Val [L ""; L "b%20c"; L ""; L "a"] /\
  snd (k_par_all true v 9) = 149 /\ fst (k_count true v 9 (L "x")) = Val 2 /\
  snd (k_contains true v 9 (L "a key longer than all others")) = 152 /\ snd (k_contains true v 9 (L "z")) = 188.
Proof. vm_compute. repeat split. Qed.
