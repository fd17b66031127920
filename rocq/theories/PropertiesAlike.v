(** * PropertiesAlike: no hidden state

    [alike u1 u2]: the same text, offsets, counters and host type; the storages
    may differ.  [same_calls], [same_work]: the same calls made on two urls
    (SpecAlike.v).  [usable u a]: SpecMixed.v; [breaks]: SpecHistory.v. *)

From Verif Require Import Base ModelChar ModelParts ModelView ModelUrl SpecChar SpecGrammar SpecLink SpecView SpecStore SpecUrl SpecHistory SpecSegments SpecMixed SpecAlike
  SpecSetters ProofsHistory ProofsAlike PropertiesSegments.

(** ** C106: what a url shows determines what it does *)

(** The accessors return the same. *)
Theorem C106_same_components :
  forall (d : bool) (a b : uri) (u1 u2 : url), rep (part_texts a) u1 -> rep (part_texts b) u2 -> alike u1 u2 ->
    shows d (view_of u1) a /\ shows d (view_of u2) a.
Proof. exact alike_shows. Qed.
Print Assumptions C106_same_components.
(** The same modifier with the same argument gives the same result, and the urls
    look the same afterwards, unless one of them runs out of memory. *)
Theorem C106_one_modifier :
  forall (E1 E2 : env) (o : op) (a b : uri) (u1 u2 : url) (r1 r2 : outcome unit) (v1 v2 : url),
    env_ok E1 -> env_ok E2 -> dbg E1 = dbg E2 -> arg_ok o -> rep (part_texts a) u1 -> rep (part_texts b) u2 -> alike u1 u2 ->
    ~ breaks (dbg E1) o a -> run E1 o u1 = (r1, v1) -> run E2 o u2 = (r2, v2) ->
    out_of_memory r1 \/ out_of_memory r2 \/ (r1 = r2 /\ alike v1 v2).
Proof. exact one_modifier. Qed.
Print Assumptions C106_one_modifier.
Theorem C106_modifiers :
  forall (d : bool) (a b : uri) (u1 u2 v1 v2 : url), rep (part_texts a) u1 -> rep (part_texts b) u2 -> alike u1 u2 ->
    same_calls d u1 u2 v1 v2 -> alike v1 v2.
Proof. exact (fun d a b u1 u2 v1 v2 R1 R2 A H => proj1 (calls_alike d a b u1 u2 v1 v2 R1 R2 A H)). Qed.
Print Assumptions C106_modifiers.

(** Segment edits: in debug builds the storage's own size must agree too.  The
    full statement has no condition on it. *)
Theorem C106_one_edit_partial :
  forall (E1 E2 : env) (e : edit) (a b : uri) (u1 u2 : url) (r1 r2 : outcome seg_it) (v1 v2 : url),
    env_ok E1 -> env_ok E2 -> dbg E1 = dbg E2 -> usable u1 a -> usable u2 b -> alike u1 u2 ->
    (dbg E1 = true -> st_size (u_st u1) = st_size (u_st u2)) -> in_range e a ->
    run_edit E1 e u1 = (r1, v1) -> run_edit E2 e u2 = (r2, v2) ->
    out_of_memory r1 \/ out_of_memory r2 \/ (r1 = r2 /\ (r1 <> Abort -> alike v1 v2)).
Proof. exact one_edit. Qed.
Print Assumptions C106_one_edit_partial.
Theorem C106_sequences_partial :
  forall (d : bool) (a b : uri) (u1 u2 v1 v2 : url), usable u1 a -> usable u2 b -> alike u1 u2 ->
    (d = true -> st_size (u_st u1) = st_size (u_st u2)) -> same_work d u1 u2 v1 v2 ->
    alike v1 v2 /\ (d = true -> st_size (u_st v1) = st_size (u_st v2)).
Proof. exact sequences. Qed.
Print Assumptions C106_sequences_partial.
(** Two urls that look the same, and one edit that works on the first only. *)
Definition ex_short : url := made true (L "//h/a?q").
Definition ex_shortened : url := snd (run (plenty true) (Set_fragment []) (made true (L "//h/a?q#f"))).
Theorem C106_edits_refuted :
  make_url (plenty true) (L "//h/a?q") = Val ex_short /\
  run (plenty true) (Set_fragment []) (made true (L "//h/a?q#f")) = (Val tt, ex_shortened) /\
  alike ex_short ex_shortened /\
  fst (run_edit (plenty true) (Erase 0) ex_short) = Val (mk_seg_it 3 0) /\
  fst (run_edit (plenty true) (Erase 0) ex_shortened) = Abort.
Proof. split; [vm_compute; reflexivity|]. split; [vm_compute; reflexivity|]. split; [split; vm_compute; reflexivity|]. split; vm_compute; reflexivity. Qed.
Print Assumptions C106_edits_refuted.

Example C106_example :
  let a := mk_uri None (Some (mk_authority None (L "h") None)) (L "/a") (Some (L "q")) None in
  rep (part_texts a) ex_short /\ rep (part_texts a) ex_shortened /\ alike ex_short ex_shortened /\
  st_cap (u_st ex_short) <> st_cap (u_st ex_shortened) /\ ~ breaks true (Set_host (L "x y")) a /\
  fst (run (plenty true) (Set_host (L "x y")) ex_short) = Val tt /\
  encoded_url (view_of (snd (run (plenty true) (Set_host (L "x y")) ex_shortened))) = Val (L "//x%20y/a?q") /\
  usable ex_short a /\ usable ex_shortened a /\ in_range (Erase 0) a.
Proof.
  assert (R1 : rep (part_texts (mk_uri None (Some (mk_authority None (L "h") None)) (L "/a") (Some (L "q")) None)) ex_short)
    by exact (rep_buf (part_texts (mk_uri None (Some (mk_authority None (L "h") None)) (L "/a") (Some (L "q")) None)) [Some NUL] 7 7 1 1 1 host_name eq_refl ltac:(vm_compute; repeat constructor)).
  assert (R2 : rep (part_texts (mk_uri None (Some (mk_authority None (L "h") None)) (L "/a") (Some (L "q")) None)) ex_shortened)
    by exact (rep_buf (part_texts (mk_uri None (Some (mk_authority None (L "h") None)) (L "/a") (Some (L "q")) None)) [Some NUL; Some "f"%char; Some NUL] 9 9 1 1 1 host_name eq_refl ltac:(vm_compute; repeat constructor)).
  cbv zeta. split; [exact R1|]. split; [exact R2|]. split; [split; vm_compute; reflexivity|]. split; [vm_compute; discriminate|]. split; [intros H; exact H|].
  split; [vm_compute; reflexivity|]. split; [vm_compute; reflexivity|].
  split; [split; [exact R1|split; reflexivity|eexists; split; vm_compute; reflexivity|discriminate]|].
  split; [split; [exact R2|split; reflexivity|eexists; split; vm_compute; reflexivity|discriminate]|].
  vm_compute. split; [split; [apply le_S, le_n|apply le_n]|left; reflexivity].
Qed.
