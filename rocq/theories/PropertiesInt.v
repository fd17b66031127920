(** * PropertiesInt: counters of segments and parameters do not overflow

    [i_run_edit m E e] is [run_edit E e] with the segments of an erased range
    counted in an int whose largest value is [m] (ModelInt.v).  [removed e] is the
    number of segments that the edit removes (SpecInt.v). *)

From Verif Require Import Base ModelChar ModelParts ModelView ModelUrl ModelInt SpecChar SpecGrammar SpecLink SpecView SpecStore SpecUrl SpecHistory
  SpecSetters SpecIter SpecSegments SpecMachine SpecCostIter SpecInt ProofsSetters ProofsSegments ProofsInt PropertiesSegments.

(** ** C93: counters do not overflow *)

(** The counters of type size_t: there are at most as many segments as characters
    in the path, and at most as many parameters as characters in "?" and query. *)
Theorem C93_counters_fit :
  forall (v : view) (a : uri), shown v a ->
    nseg (v_pt v) <= length (uri_path a) /\ nparam (v_pt v) <= query_length a /\
    length (uri_path a) + query_length a <= off (v_pt v) id_end.
Proof. exact counters_fit. Qed.
Print Assumptions C93_counters_fit.

(** The counter of type int: an edit that removes at most [m] segments is not
    affected ... *)
Theorem C93_int_suffices :
  forall (m : nat) (E : env) (e : edit) (a : uri) (u : url),
    env_ok E -> editable (dbg E) u a -> in_range e a -> removed e <= m ->
    i_run_edit m E e u = run_edit E e u.
Proof. exact int_edits. Qed.
Print Assumptions C93_int_suffices.
(** ... so none is if memory is not larger than an int can count, as on usual
    machines of 32 bits. *)
Theorem C93_small_memory :
  forall (m : nat) (E : env) (e : edit) (a : uri) (u : url),
    env_ok E -> editable (dbg E) u a -> in_range e a -> st_cap (u_st u) <= max_size E -> max_size E <= m ->
    i_run_edit m E e u = run_edit E e u.
Proof. exact int_small_memory. Qed.
Print Assumptions C93_small_memory.
Theorem C93_bits32 : forall d : bool, max_size (bits32 d) <= int_max.
Proof. exact bits32_int. Qed.
Print Assumptions C93_bits32.
(** Erasing more than [m] segments at once is undefined behaviour. *)
Theorem C93_int_overflows :
  forall (m : nat) (E : env) (i j : nat) (a : uri) (u : url),
    editable (dbg E) u a -> in_range (Erase_range i j) a -> m < j - i ->
    i_run_edit m E (Erase_range i j) u = (UB, u).
Proof. exact int_overflows. Qed.
Print Assumptions C93_int_overflows.
Example C93_example :
  editable true (made true ex_text) ex_uri /\ in_range (Erase_range 0 2) ex_uri /\ removed (Erase_range 0 2) = 2 /\
  (exists p u', i_run_edit 2 (plenty true) (Erase_range 0 2) (made true ex_text) = (Val p, u')) /\
  fst (i_run_edit 1 (plenty true) (Erase_range 0 2) (made true ex_text)) = UB.
Proof.
  split; [|split; [|split; [reflexivity|split]]].
  - destruct C28_covered_example as (u & E1 & K). assert (made true ex_text = u) as -> by (unfold made; rewrite E1; reflexivity). exact K.
  - split; [split; apply Nat.leb_le; vm_compute; reflexivity|left; vm_compute; reflexivity].
  - do 2 eexists. vm_compute. reflexivity.
  - vm_compute. reflexivity.
Qed.

(** On a machine of 64 bits with an int of 32 bits there is a url of less than
    2^32 segments of which erasing all segments is undefined behaviour. *)
Theorem C93_bits64_refuted :
  forall d : bool, exists n u p u', (N.of_nat n < 2 ^ 32)%N /\ make_url (bits64 d) (recompose (many n)) = Val u /\
    run_edit (bits64 d) (Erase_range 0 n) u = (Val p, u') /\ i_run_edit int_max (bits64 d) (Erase_range 0 n) u = (UB, u).
Proof. exact int_refuted. Qed.
Print Assumptions C93_bits64_refuted.
