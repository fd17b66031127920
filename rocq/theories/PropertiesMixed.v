(** * PropertiesMixed: modifiers and segment edits together

    [usable u a]: [u] has components [a], right counters and a terminating zero.
    [mixed d u0 u]: [u] results from [u0] by any finite sequence of modifiers and
    segment edits.  [in_sync u]: the storage's own size is the size of the URL.
    See SpecMixed.v. *)

From Verif Require Import Base ModelChar ModelParts ModelView ModelUrl SpecChar SpecGrammar SpecLink SpecView SpecStore SpecUrl SpecHistory
  SpecSetters SpecIter SpecSegments SpecMixed ProofsUrl ProofsSetters ProofsSegments ProofsMixed PropertiesSegments.

(** ** C45: mixed sequences *)

Theorem C45_mixed_sequences_are_sound :
  forall (d : bool) (u0 u : url), fresh u0 -> terminated u0 -> mixed d u0 u ->
    exists a, usable u a /\ wf_components a /\ shown (view_of u) a /\ sound_memory u /\
      (forall E o, env_ok E -> dbg E = d -> arg_ok o -> ~ breaks d o a ->
         exists u', run E o u = (Val tt, u') \/ exists x, run E o u = (Exn x, u)) /\
      (forall E e, env_ok E -> dbg E = d -> in_range e a ->
         (exists p u', run_edit E e u = (Val p, u')) \/ (exists x, run_edit E e u = (Exn x, u)) \/
         (d = true /\ exists u', run_edit E e u = (Abort, u'))).
Proof. exact mixed_sound. Qed.
Print Assumptions C45_mixed_sequences_are_sound.

(** Each modifier in such a sequence does what it should, and so does each edit. *)
Theorem C45_modifiers_in_sequences :
  forall (E : env) (o : op) (u : url) (a : uri) (r : outcome unit) (u' : url),
    env_ok E -> arg_ok o -> keeps_counts o -> usable u a -> ~ breaks (dbg E) o a -> run E o u = (r, u') ->
    (r = Val tt /\ exists a', does o a a' /\ usable u' a' /\ sizes_after o a u u') \/ (exists x, r = Exn x /\ u' = u).
Proof. exact call_usable. Qed.
Print Assumptions C45_modifiers_in_sequences.
Theorem C45_edits_in_sequences :
  forall (E : env) (e : edit) (u : url) (a : uri) (r : outcome seg_it) (u' : url),
    env_ok E -> usable u a -> in_range e a -> run_edit E e u = (r, u') ->
    (exists p, r = Val p /\ text_valid e /\ usable u' (with_segments (list_edit e (the_segments a)) a) /\
       (dbg E = true -> in_sync u /\ in_sync u')) \/
    (exists x, r = Exn x /\ u' = u) \/
    (r = Abort /\ dbg E = true).
Proof. exact edit_usable. Qed.
Print Assumptions C45_edits_in_sequences.

Definition ex_mid : url := snd (run (plenty false) (Set_encoded_host (L "x")) (made false (L "//host/a/b"))).
Definition ex_last : url := snd (run_edit (plenty false) (Insert 2 (L "c d")) ex_mid).
Example C45_example :
  mixed false (made false (L "//host/a/b")) ex_last /\ fresh (made false (L "//host/a/b")) /\ terminated (made false (L "//host/a/b")) /\
  encoded_url (view_of ex_last) = Val (L "//x/a/b/c%20d").
Proof.
  split; [|split; [|split]].
  - eapply (mixed_edit false _ (plenty false) (Insert 2 (L "c d")) ex_mid).
    + eapply (mixed_call false _ (plenty false) (Set_encoded_host (L "x")) (made false (L "//host/a/b"))).
      * constructor.
      * right. split; [reflexivity|]. split; [reflexivity|]. intros a a' (x & y & sc & oa & _ & K & _). discriminate.
      * exact (plenty_ok false).
      * reflexivity.
      * exact I.
      * intros a _ K. exact K.
      * vm_compute; reflexivity.
    + exact (plenty_ok false).
    + reflexivity.
    + intros a R. assert (E : part_texts a = part_texts (mk_uri None (Some (mk_authority None (L "x") None)) (L "/a/b") None None)).
      { apply (rep_fun _ _ ex_mid R).
        exact (rep_buf (part_texts (mk_uri None (Some (mk_authority None (L "x") None)) (L "/a/b") None None)) [Some NUL; Some "/"; Some "b"; Some NUL]%char 10 10 1 2 0 host_name eq_refl ltac:(vm_compute; repeat constructor)). }
      assert (P : uri_path a = L "/a/b") by exact (f_equal (fun l => nth 5 l []) E).
      unfold in_range, the_segments. rewrite P. split; [cbn; lia|left; reflexivity].
    + vm_compute; reflexivity.
    + discriminate.
  - right. exists (plenty false), (L "//host/a/b"). split; [exact (plenty_ok false)|]. vm_compute; reflexivity.
  - eexists. split; [vm_compute; reflexivity|]. vm_compute; reflexivity.
  - vm_compute; reflexivity.
Qed.

(** ** C46: the storage's own size *)

Theorem C46_size_after_every_call :
  forall (E : env) (o : op) (a : uri) (u u' : url),
    env_ok E -> arg_ok o -> rep (part_texts a) u -> ~ breaks (dbg E) o a -> run E o u = (Val tt, u') -> sizes_after o a u u'.
Proof. exact call_sizes. Qed.
Print Assumptions C46_size_after_every_call.
Example C46_example :
  run (plenty true) (Set_fragment []) (made true (L "//h/a#f")) = (Val tt, snd (run (plenty true) (Set_fragment []) (made true (L "//h/a#f")))) /\
  st_size (u_st (snd (run (plenty true) (Set_fragment []) (made true (L "//h/a#f"))))) = 7 /\
  usize (snd (run (plenty true) (Set_fragment []) (made true (L "//h/a#f")))) = 5.
Proof. split; [vm_compute; reflexivity|]. split; [vm_compute; reflexivity|]. vm_compute; reflexivity. Qed.

(** ** C47: assertion-enabled builds *)

(** When the two sizes disagree, every edit with valid text aborts. *)
Theorem C47_edits_abort_when_sizes_disagree :
  forall (E : env) (u : url) (a : uri) (e : edit),
    dbg E = true -> usable u a -> in_range e a -> ~ in_sync u -> text_valid e -> run_edit E e u = (Abort, u).
Proof. exact edit_disagree. Qed.
Print Assumptions C47_edits_abort_when_sizes_disagree.
(** That is what happens after any call that makes a URL shorter. *)
Theorem C47_edits_abort_after_shortening :
  forall (E : env) (o : op) (u u' : url) (a a' : uri) (e : edit),
    env_ok E -> dbg E = true -> arg_ok o -> replaces o = false -> ~ breaks true o a -> editable true u a ->
    run E o u = (Val tt, u') -> usize u' < usize u ->
    usable u' a' -> in_range e a' -> text_valid e -> run_edit E e u' = (Abort, u').
Proof. exact shortened_abort. Qed.
Print Assumptions C47_edits_abort_after_shortening.
Definition cut : url := snd (run (plenty true) (Set_fragment []) (made true ex_text)).
Definition cut_uri : uri := with_fragment None ex_uri.
Example C47_example :
  editable true (made true ex_text) ex_uri /\ run (plenty true) (Set_fragment []) (made true ex_text) = (Val tt, cut) /\
  usize cut < usize (made true ex_text) /\ ~ in_sync cut /\ usable cut cut_uri /\ in_range (Insert 1 (L "x y")) cut_uri /\
  text_valid (Insert 1 (L "x y")) /\ ~ breaks true (Set_fragment []) ex_uri.
Proof.
  split; [destruct C28_covered_example as (u & E & H); unfold made; rewrite E; exact H|]. split; [vm_compute; reflexivity|].
  split; [apply Nat.ltb_lt; vm_compute; reflexivity|]. split; [intros H; vm_compute in H; discriminate H|]. split; [|split; [split; [cbn; lia|left; reflexivity]|split; [exact I|intros H; exact H]]].
  split.
  - replace cut with (st (map Some (concat (part_texts cut_uri))) [Some NUL; Some "f"%char; Some NUL] 16 16 1 (bounds 0 (part_texts cut_uri)) 2 1 host_name) by (vm_compute; reflexivity).
    exact (rep_buf (part_texts cut_uri) [Some NUL; Some "f"%char; Some NUL] 16 16 1 2 1 host_name eq_refl ltac:(vm_compute; repeat constructor)).
  - split; reflexivity.
  - eexists. split; vm_compute; reflexivity.
  - discriminate.
Qed.
Theorem C47_mixing_refuted :
  exists u u', make_url (plenty true) (L "//h/a?q#f") = Val u /\ run (plenty true) (Set_fragment []) u = (Val tt, u') /\
    run_edit (plenty true) (Erase 0) u' = (Abort, u') /\ fst (run_edit (plenty false) (Erase 0) u') = Val (mk_seg_it 3 0).
Proof.
  do 2 eexists. split; [vm_compute; reflexivity|]. split; [vm_compute; reflexivity|]. split; [vm_compute; reflexivity|]. vm_compute; reflexivity.
Qed.
Print Assumptions C47_mixing_refuted.
