(** * PropertiesUrls: iterators of another url

    [h]: the urls at all addresses.  [wcall E x c h]: the call [c] of a function of
    the segments of the url at [x]; its iterators [iter] carry the address of
    their url.  [points d h y i p]: [p] is the iterator at position [i] of the url
    at [y].  [with_positions pos e]: the edit [e] with the iterator [pos i] for
    every position [i].  See SpecUrls.v, ModelUrls.v. *)

From Verif Require Import Base ModelChar ModelParts ModelView ModelUrl SpecChar SpecGrammar SpecLink SpecView SpecStore SpecUrl SpecHistory SpecSetters SpecIter
  SpecSegments SpecHeld ProofsSetters ProofsSegments ModelUrls SpecUrls ProofsUrls.

Definition the_url (d : bool) (s : str) : url := match make_url (plenty d) s with Val u => u | _ => url0 end.
(** Two urls: number 1, and number 0 everywhere else. *)
Definition two (d : bool) (s t : str) : urls := fun z => if z =? 1 then the_url d t else the_url d s.
Definition at_pos (d : bool) (h : urls) (y i : nat) : iter :=
  mk_iter (Some y) (match position d (h y) i with Val p => p | _ => mk_seg_it 0 0 end).
Definition two_text : str := L "http://h/a/b?q#f".
Definition two_uri : uri := mk_uri (Some (L "http")) (Some (mk_authority None (L "h") None)) (L "/a/b") (Some (L "q")) (Some (L "f")).
Lemma two_editable d : editable d (the_url d two_text) two_uri.
Proof.
  assert (G : the_url d two_text = the_url false two_text) by (destruct d; vm_compute; reflexivity). rewrite G.
  assert (K : the_url false two_text = st (map Some (concat (part_texts two_uri))) [Some NUL] 16 16 1 (bounds 0 (part_texts two_uri)) 2 1 host_name) by (vm_compute; reflexivity).
  split.
  - rewrite K. exact (rep_buf (part_texts two_uri) [Some NUL] 16 16 1 2 1 host_name eq_refl ltac:(vm_compute; repeat constructor)).
  - split; vm_compute; reflexivity.
  - eexists. split; [vm_compute; reflexivity|]. vm_compute; reflexivity.
  - intros _. vm_compute. reflexivity.
Qed.

(** ** C114 *)

(** *** Comparison *)

(** Iterators are equal exactly if they are at the same position of the same
    url; no assertion fires. *)
Theorem C114_segments_compared :
  forall (E : env) (h : urls) (c : nat -> uri) (x y i j : nat) (p q : iter), (forall z, editable (dbg E) (h z) (c z)) ->
    i <= length (the_segments (c x)) -> j <= length (the_segments (c y)) -> points (dbg E) h x i p -> points (dbg E) h y j q ->
    wseg_eq E p q = Val ((x =? y) && (i =? j)).
Proof. exact segments_compared. Qed.
Print Assumptions C114_segments_compared.
Theorem C114_params_compared :
  forall (E : env) (h : urls) (c : nat -> uri) (x y i j : nat) (p q : piter), (forall z, shown (view_of (h z)) (c z) /\ iterable (c z)) ->
    i <= length (params_of (c x)) -> j <= length (params_of (c y)) -> ppoints (dbg E) h x i p -> ppoints (dbg E) h y j q ->
    wpar_eq E p q = Val ((x =? y) && (i =? j)).
Proof. exact params_compared. Qed.
Print Assumptions C114_params_compared.
(** A default-constructed iterator equals no iterator of a url. *)
Theorem C114_default_compared :
  forall (E : env) (p : iter) (q : piter), it_v p <> None -> pi_v q <> None ->
    wseg_eq E no_iter p = Val false /\ wseg_eq E p no_iter = Val false /\ wseg_eq E no_iter no_iter = Val true /\
    wpar_eq E no_piter q = Val false /\ wpar_eq E q no_piter = Val false /\ wpar_eq E no_piter no_piter = Val true.
Proof.
  exact (fun E p q H K => conj (proj1 (nobody_equals E p H)) (conj (proj2 (nobody_equals E p H)) (conj (null_equals E)
    (conj (proj1 (nobody_equals_param E q K)) (conj (proj2 (nobody_equals_param E q K)) (null_equals_param E)))))).
Qed.
Print Assumptions C114_default_compared.
Example C114_compared_example :
  let h := two true two_text two_text in
  (forall z, editable true (h z) two_uri) /\ points true h 0 1 (at_pos true h 0 1) /\ points true h 1 1 (at_pos true h 1 1) /\
  (* two urls with the same text *)
  it_at (at_pos true h 0 1) = it_at (at_pos true h 1 1) /\ wseg_eq (plenty true) (at_pos true h 0 1) (at_pos true h 1 1) = Val false.
Proof.
  cbv zeta. split; [|split; [split; vm_compute; reflexivity|split; [split; vm_compute; reflexivity|split; vm_compute; reflexivity]]].
  intros z. unfold two. destruct (z =? 1); apply two_editable.
Qed.

(** *** Edits *)

(** Full statement: a function that is given an iterator of another url does not
    carry out the edit.  Without assertions it does, and breaks the url: here the
    segment "/a" of url 1 is erased from url 0, which loses the "ht" of its scheme,
    and the returned iterator belongs to url 1. *)
Theorem C114_foreign_refuted :
  exists (h : urls) (p q : iter),
    encoded_url (view_of (h 0)) = Val (L "http://h/p?q") /\ encoded_url (view_of (h 1)) = Val (L "/a/b") /\ points false h 1 0 p /\
    let m := wcall (plenty false) 0 (CErase p) h in
    fst m = Val q /\ it_v q = Some 1 /\
    encoded_url (view_of (snd m 0)) = Val (L "tp://h/p?q") /\ scheme false (view_of (snd m 0)) = Val (L "tp:/") /\ encoded_path (view_of (snd m 0)) = Val [].
Proof.
  exists (two false (L "http://h/p?q") (L "/a/b")), (mk_iter (Some 1) (mk_seg_it 0 2)), (mk_iter (Some 1) (mk_seg_it 0 2)).
  cbv zeta. split; [vm_compute; reflexivity|]. split; [vm_compute; reflexivity|]. split; [split; vm_compute; reflexivity|].
  split; [vm_compute; reflexivity|]. split; [reflexivity|]. split; [vm_compute; reflexivity|]. split; vm_compute; reflexivity.
Qed.
Print Assumptions C114_foreign_refuted.
(** A default-constructed iterator: the null pointer is followed before it is
    compared, with assertions too. *)
Theorem C114_default_refuted :
  forall (E : env) (x : nat) (h : urls), wcall E x (CErase no_iter) h = (UB, h).
Proof. exact null_erase. Qed.
Print Assumptions C114_default_refuted.
Theorem C114_default_replace_refuted :
  forall (E : env) (x : nat) (h : urls) (s : str) (a : uri), env_ok E -> editable (dbg E) (h x) a ->
    fits E (h x) (st_size (u_st (h x)) + (length (canonical_encoding k_pchar s) + 1)) = true ->
    fst (wcall E x (CReplace no_iter s) h) = UB.
Proof. exact null_replace. Qed.
Print Assumptions C114_default_replace_refuted.

(** With assertions enabled the call is refused whenever one of its iterators
    belongs to another url or to none ([advances]: where the call advances the
    iterator, it is at a segment of its own url): invalid text and lack of room for
    a replacement are reported as usual, otherwise an assertion fires.  No text
    changes, neither here nor in any other url. *)
Theorem C114_refused_partial :
  forall (E : env) (x : nat) (c : seg_call iter) (h : urls) (a : uri), env_ok E -> dbg E = true -> editable true (h x) a ->
    Exists (fun p => it_v p <> Some x) (iters c) -> advances true h c ->
    refusal E (h x) c (fst (wcall E x c h)) /\
    editable true (snd (wcall E x c h) x) a /\ (replaces_with c = None -> snd (wcall E x c h) x = h x) /\
    (forall y, y <> x -> snd (wcall E x c h) y = h y).
Proof. exact foreign_refused. Qed.
Print Assumptions C114_refused_partial.
Example C114_refused_example :
  let h := two true two_text (L "/c/d?e") in let c := CReplace (at_pos true h 1 0) (L "x") in
  editable true (h 0) two_uri /\ Exists (fun p => it_v p <> Some 0) (iters c) /\ advances true h c /\ fst (wcall (plenty true) 0 c h) = Abort.
Proof.
  split; [apply two_editable|]. split; [constructor; discriminate|]. split; [|vm_compute; reflexivity].
  exists 1, 0, (mk_uri None None (L "/c/d") (Some (L "e")) None). split; [split; vm_compute; reflexivity|]. split; [|cbn; lia]. split.
  - assert (K : two true two_text (L "/c/d?e") 1 = st (map Some (concat (part_texts (mk_uri None None (L "/c/d") (Some (L "e")) None)))) [Some NUL] 6 6 1
      (bounds 0 (part_texts (mk_uri None None (L "/c/d") (Some (L "e")) None))) 2 1 host_none) by (vm_compute; reflexivity).
    rewrite K. exact (rep_buf (part_texts (mk_uri None None (L "/c/d") (Some (L "e")) None)) [Some NUL] 6 6 1 2 1 host_none eq_refl ltac:(vm_compute; repeat constructor)).
  - split; vm_compute; reflexivity.
  - eexists. split; [vm_compute; reflexivity|]. vm_compute; reflexivity.
  - intros _. vm_compute. reflexivity.
Qed.

(** In every build, with any iterators: no other url is modified. *)
Theorem C114_others_untouched_partial :
  forall (E : env) (x : nat) (c : seg_call iter) (h : urls) (y : nat), y <> x -> snd (wcall E x c h) y = h y.
Proof. exact (fun E x c => frames_call E x c). Qed.
Print Assumptions C114_others_untouched_partial.

(** With its own iterators a call does what it does when there is only one url
    (C28, C65). *)
Theorem C114_own_partial :
  forall (E : env) (x : nat) (e : edit) (pos : nat -> iter) (h : urls) (a : uri), editable (dbg E) (h x) a -> in_range e a ->
    (forall i, i <= length (the_segments a) -> points (dbg E) h x i (pos i)) ->
    let m := wcall E x (with_positions pos e) h in
    fst m = omap (mk_iter (Some x)) (fst (run_edit E e (h x))) /\ snd m x = snd (run_edit E e (h x)) /\
    (forall y, y <> x -> snd m y = h y).
Proof. exact own_edits. Qed.
Print Assumptions C114_own_partial.
Example C114_own_example :
  let h := two true two_text (L "/c/d?e") in
  editable true (h 0) two_uri /\ in_range (Replace 1 (L "x y")) two_uri /\ (forall i, i <= 2 -> points true h 0 i (at_pos true h 0 i)) /\
  let m := wcall (plenty true) 0 (with_positions (at_pos true h 0) (Replace 1 (L "x y"))) h in
  encoded_url (view_of (snd m 0)) = Val (L "http://h/a/x%20y?q#f") /\ encoded_url (view_of (snd m 1)) = Val (L "/c/d?e").
Proof.
  split; [apply two_editable|]. split; [split; [cbn; lia|left; reflexivity]|]. split; [|split; vm_compute; reflexivity].
  intros i Hi. split; [reflexivity|]. destruct i as [|[|[|]]]; [| | |lia]; vm_compute; reflexivity.
Qed.

(** Without assertions, iterators of another url with the same components (a
    copy): the edit is carried out, on the url whose function was called; the
    returned iterator belongs to the other. *)
Theorem C114_copy_partial :
  forall (E : env) (x y : nat) (e : edit) (pos : nat -> iter) (h : urls) (a : uri), env_ok E -> dbg E = false -> x <> y ->
    editable false (h x) a -> editable false (h y) a -> in_range e a -> text_valid e ->
    (forall i, i <= length (the_segments a) -> points false h y i (pos i)) ->
    let m := wcall E x (with_positions pos e) h in
    (fits E (h x) (edit_need e (h x) a) = true -> editable false (snd m x) (with_segments (list_edit e (the_segments a)) a)) /\
    (fits E (h x) (edit_need e (h x) a) = false -> fst m = Exn bad_alloc /\ snd m x = h x) /\
    (forall q, fst m = Val q -> it_v q = Some y) /\ (forall z, z <> x -> snd m z = h z).
Proof. exact copy_edited. Qed.
Print Assumptions C114_copy_partial.
Example C114_copy_example :
  let h := two false two_text two_text in
  editable false (h 0) two_uri /\ editable false (h 1) two_uri /\ in_range (Erase 0) two_uri /\
  (forall i, i <= 2 -> points false h 1 i (at_pos false h 1 i)) /\
  let m := wcall (plenty false) 0 (with_positions (at_pos false h 1) (Erase 0)) h in
  encoded_url (view_of (snd m 0)) = Val (L "http://h/b?q#f") /\ encoded_url (view_of (snd m 1)) = Val two_text /\
  (* the returned iterator is at the first segment of the other url *)
  fst m = Val (at_pos false h 1 0).
Proof.
  split; [apply two_editable|]. split; [apply two_editable|]. split; [split; [cbn; lia|left; reflexivity]|]. split; [|split; [vm_compute; reflexivity|split; vm_compute; reflexivity]].
  intros i Hi. split; [reflexivity|]. destruct i as [|[|[|]]]; [| | |lia]; vm_compute; reflexivity.
Qed.
