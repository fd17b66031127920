(** * PropertiesCostAppend: building a path segment by segment

    [c_each (c_append E plain) ss]: the segments [ss] are inserted at end() one
    after the other, by insert() if [plain] and else by insert_encoded();
    [c_each (c_prepend E plain) ss]: at begin() (SpecCostAppend.v).  The parts
    from the sixth on are query and fragment. *)

From Verif Require Import Base ModelChar ModelParts ModelView ModelUrl ModelCostUrl SpecChar SpecGrammar SpecView SpecStore SpecUrl SpecHistory SpecSetters SpecSegments
  SpecCostUrl SpecCostAppend ProofsCostAppend.

(** ** C95: appending is linear, prepending is not *)

(** Both are edits of SpecSegments.v. *)
Theorem C95_append_is_insert :
  forall (E : env) (a : uri) (u : url) (plain : bool) (s : str), editable (dbg E) u a ->
    result (c_append E plain s) u = run_edit E ((if plain then Insert else Insert_encoded) (length (the_segments a)) s) u /\
    result (c_prepend E plain s) u = run_edit E ((if plain then Insert else Insert_encoded) 0 s) u.
Proof. exact (fun E a u plain s H => conj (append_is E a u plain s H) (prepend_is E u plain s)). Qed.
Print Assumptions C95_append_is_insert.

(** Whatever is appended to whatever url, and whatever comes of it: apart from
    moving query and fragment each time, the steps are linear in the length of
    the url and of what is appended, although the buffer grows on the way. *)
Theorem C95_append_linear :
  forall (E : env) (a : uri) (u : url) (plain : bool) (ss : list str), env_ok E -> rep (part_texts a) u ->
    steps (c_each (c_append E plain) ss) u <=
      4 * usize u + 32 * length (concat ss) + (174 + 2 * length (concat (skipn 6 (part_texts a)))) * length ss.
Proof. exact append_linear. Qed.
Print Assumptions C95_append_linear.

(** Prepending moves the path each time: however short the segments, the steps
    are quadratic in their number. *)
Theorem C95_prepend_quadratic :
  forall (E : env) (a : uri) (u : url) (plain : bool) (ss : list str), env_ok E -> rep (part_texts a) u ->
    fst (result (c_each (c_prepend E plain) ss) u) = Val tt ->
    length ss * (length ss - 1) <= steps (c_each (c_prepend E plain) ss) u.
Proof. exact prepend_quadratic. Qed.
Print Assumptions C95_prepend_quadratic.

Definition c95_uri : uri := mk_uri (Some (L "http")) (Some (mk_authority None (L "h") None)) (L "/a") None None.
Example C95_example : exists u, make_url (plenty false) (L "http://h/a") = Val u /\ editable false u c95_uri /\ env_ok (plenty false) /\
  (let ss := repeat (L "b") 16 in
   fst (result (c_each (c_append (plenty false) false) ss) u) = Val tt /\ steps (c_each (c_append (plenty false) false) ss) u = 2064 /\
   fst (result (c_each (c_prepend (plenty false) false) ss) u) = Val tt /\ steps (c_each (c_prepend (plenty false) false) ss) u = 2798 /\
   usize (snd (result (c_each (c_append (plenty false) false) ss) u)) = 42).
Proof.
  eexists. split; [vm_compute; reflexivity|]. split; [split|].
  - exact (rep_buf (part_texts c95_uri) [Some NUL] 10 10 1 1 0 host_name eq_refl ltac:(vm_compute; repeat constructor)).
  - split; reflexivity.
  - eexists. split; [vm_compute; reflexivity|]. vm_compute; reflexivity.
  - discriminate.
  - split; [intros k n H; apply Nat.leb_le in H; exact H|]. vm_compute. repeat split.
Qed.
