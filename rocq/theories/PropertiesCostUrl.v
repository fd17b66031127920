(** * PropertiesCostUrl: modifiers and segment edits take linear time

    [c_run E o] is the modifier [run E o] and [c_run_edit E e] the segment edit
    [run_edit E e], with their comparisons, readings, writings and movements
    counted (ModelCostUrl.v, SpecCostUrl.v).  [text_of o], [edit_text e]: the
    text that is given to them (SpecMachine.v).  [editable d u a], [in_range e
    a]: SpecSegments.v. *)

From Verif Require Import Base ModelChar ModelParts ModelParse ModelView ModelUrl ModelCostUrl SpecChar SpecGrammar SpecLink SpecView SpecStore SpecUrl SpecHistory SpecSetters
  SpecSegments SpecMachine SpecCostUrl ProofsCostUrlEdits.

(** ** C94: no url and no argument makes a modification slow *)

(** Whatever the modifier, its argument and its outcome: the same result, in a
    number of steps at most linear in the length of the url and of the text. *)
Theorem C94_modifiers :
  forall (E : env) (o : op) (a : uri) (u : url), env_ok E -> rep (part_texts a) u ->
    result (c_run E o) u = run E o u /\
    steps (c_run E o) u <= 8 * usize u + 40 * length (text_of o) + 1600.
Proof. exact run_linear. Qed.
Print Assumptions C94_modifiers.
(** ... and at least one for each character of a text that was stored. *)
Theorem C94_modifiers_least :
  forall (E : env) (o : op) (u : url), fst (result (c_run E o) u) = Val tt -> length (text_of o) <= steps (c_run E o) u.
Proof. exact run_least. Qed.
Print Assumptions C94_modifiers_least.

(** Segment edits; [st_size] is the size that the storage has recorded, which is
    the length of the url in debug builds. *)
Theorem C94_edits :
  forall (E : env) (e : edit) (a : uri) (u : url), env_ok E -> editable (dbg E) u a -> in_range e a ->
    result (c_run_edit E e) u = run_edit E e u /\
    steps (c_run_edit E e) u <= 20 * usize u + 2 * st_size (u_st u) + 40 * length (edit_text e) + 600.
Proof. exact edit_linear. Qed.
Print Assumptions C94_edits.
Theorem C94_edits_least :
  forall (E : env) (e : edit) (u : url) (it : seg_it), fst (result (c_run_edit E e) u) = Val it -> length (edit_text e) <= steps (c_run_edit E e) u.
Proof. exact edit_least. Qed.
Print Assumptions C94_edits_least.
Definition c94_uri : uri := mk_uri (Some (L "http")) (Some (mk_authority None (L "h") None)) (L "/a/b") (Some (L "q")) (Some (L "f")).
Example C94_example : exists u, make_url (plenty true) (L "http://h/a/b?q#f") = Val u /\ editable true u c94_uri /\ in_range (Replace_encoded 0 (L "long")) c94_uri /\
  steps (c_run (plenty true) (Set_user (L "a b"))) u = 220 /\ steps (c_run (plenty true) (Set_encoded_url (L "x:%"))) u = 42 /\
  steps (c_run_edit (plenty true) (Replace_encoded 0 (L "long"))) u = 495 /\ steps (c_run_edit (plenty true) (Erase_range 0 1)) u = 194.
Proof.
  eexists. split; [vm_compute; reflexivity|]. split; [split|].
  - exact (rep_buf (part_texts c94_uri) [Some NUL] 16 16 1 2 1 host_name eq_refl ltac:(vm_compute; repeat constructor)).
  - split; reflexivity.
  - eexists. split; [vm_compute; reflexivity|]. vm_compute; reflexivity.
  - reflexivity.
  - split; [split; [vm_compute; repeat constructor|left; reflexivity]|]. vm_compute. repeat split.
Qed.

(** In a release build the recorded size can be longer than the url ever after
    something was removed, and replacing a segment then copies it all: its time
    cannot be bounded by the url and the text. *)
Theorem C94_hidden_size_refuted :
  forall x y : nat, exists E u a s, env_ok E /\ dbg E = false /\ editable (dbg E) u a /\ in_range (Replace_encoded 0 s) a /\
    x * (usize u + length s) + y < steps (c_run_edit E (Replace_encoded 0 s)) u.
Proof. exact hidden_size_edit. Qed.
Print Assumptions C94_hidden_size_refuted.

(** Such a url: the fragment is removed, but a segment is replaced as slowly as
    if it were there. *)
Example C94_hidden_size_example :
  let after k := snd (run (plenty false) (Set_fragment []) (snd (run (plenty false) (Set_encoded_url (L "/a#" ++ repeat "x"%char k)) url0))) in
  usize (after 0) = 2 /\ usize (after 500) = 2 /\
  steps (c_run_edit (plenty false) (Replace_encoded 0 (L "bc"))) (after 0) = 376 /\
  steps (c_run_edit (plenty false) (Replace_encoded 0 (L "bc"))) (after 500) = 1376.
Proof. vm_compute. repeat split. Qed.
