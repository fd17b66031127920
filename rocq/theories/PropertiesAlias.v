(** * PropertiesAlias: arguments and views that point into the URL

    [run_from E o x], [edit_from E e x]: the call [o] or [e] with its text taken
    from [x] (ModelAlias.v, SpecAlias.v).  [has_bytes u p s]: the bytes at offset [p]
    of the buffer of [u] are [s]; [own u p s]: the string_view of these bytes.
    [need o a a']: the size the call needs in between (SpecUrl.v). *)

From Verif Require Import Base ModelChar ModelParts ModelParse ModelView ModelUrl ModelAlias SpecChar SpecGrammar SpecLink SpecView SpecStore SpecUrl SpecHistory
  SpecSetters SpecIter SpecSegments SpecMixed SpecAlias ProofsHistory ProofsAlias ProofsSetters.

(** For the examples. *)
Definition cells_of (u : url) : list cell := match live_buf u with Some b => b | None => [] end.
Definition is_val {A} (o : outcome A) : bool := match o with Val _ => true | _ => false end.

(** ** C52: a view of the URL as argument of one of its own modifiers *)

Definition ex_short : url := match make_url (plenty true) (L "x#abc") with Val u => u | _ => url0 end.
(** False: a url made from a text has no spare capacity, so that a modifier which
    makes the text longer frees the buffer it then copies from. *)
Theorem C52_use_after_free_refuted :
  exists (E : env) (t s : str) (u : url) (p : nat), env_ok E /\ make_url E t = Val u /\ has_bytes u p s /\
    fst (run E (Set_encoded_query s) u) = Val tt /\ fst (run_from E (Set_encoded_query s) (own u p s) u) = UB.
Proof.
  exists (plenty true), (L "x#abc"), (L "abc"), ex_short, 2. split; [exact (plenty_ok true)|]. split; [vm_compute; reflexivity|].
  split; [exists (cells_of ex_short); split; vm_compute; reflexivity|]. split; vm_compute; reflexivity.
Qed.
Print Assumptions C52_use_after_free_refuted.

Definition ex_alias : url := match url_after (plenty true) (L "p/q#ab") [Set_encoded_fragment (L "abcdefghij"); Set_encoded_fragment (L "ab")] with Val u => u | _ => url0 end.
(** False even with spare capacity: text behind the place of the change is moved
    before it is copied, and what is stored is never validated. *)
Theorem C52_shifted_text_refuted :
  exists (E : env) (t : str) (os : list op) (s : str) (u u' : url) (p : nat), env_ok E /\ url_after E t os = Val u /\
    has_bytes u p s /\ run_from E (Set_scheme s) (own u p s) u = (Val tt, u') /\
    s = L "ab" /\ scheme (dbg E) (view_of u') = Val (L "/q") /\ encoded_url (view_of u') = Val (L "/q:p/q#ab").
Proof.
  exists (plenty true), (L "p/q#ab"), [Set_encoded_fragment (L "abcdefghij"); Set_encoded_fragment (L "ab")], (L "ab"), ex_alias, (snd (run_from (plenty true) (Set_scheme (L "ab")) (own ex_alias 4 (L "ab")) ex_alias)), 4.
  split; [exact (plenty_ok true)|]. split; [vm_compute; reflexivity|]. split; [exists (cells_of ex_alias); split; vm_compute; reflexivity|].
  split; [vm_compute; reflexivity|]. split; [reflexivity|]. split; vm_compute; reflexivity.
Qed.
Print Assumptions C52_shifted_text_refuted.

(** ** C53: exactly when it works *)

(** The argument is unrelated to the URL: the modifiers of ModelUrl.v. *)
Theorem C53_text_elsewhere :
  forall (E : env) (o : op) (s : str) (u : url), arg_text o = Some s -> run_from E o (Ext s) u = run E o u.
Proof. exact external_same. Qed.
Print Assumptions C53_text_elsewhere.

(** The argument is a view of the URL.  A failing call fails alike and changes
    nothing.  A succeeding call: without the capacity it needs, it copies from
    freed memory; with it, a view that ends before the first replaced character
    works like a copy of the text; so does an argument with nothing to copy. *)
Theorem C53_own_text :
  forall (E : env) (o : op) (a : uri) (u : url) (p : nat) (s : str),
    env_ok E -> arg_ok o -> rep (part_texts a) u -> ~ breaks (dbg E) o a -> arg_text o = Some s -> has_bytes u p s ->
    (exists a' u', run E o u = (Val tt, u') /\ does o a a' /\
       (has_text o s -> st_cap (u_st u) < need o a a' -> exists w, run_from E o (own u p s) u = (UB, w)) /\
       (need o a a' <= st_cap (u_st u) -> p + length s <= first_changed o u -> run_from E o (own u p s) u = (Val tt, u')) /\
       (~ has_text o s -> run_from E o (own u p s) u = (Val tt, u'))) \/
    (exists e, run E o u = (Exn e, u) /\ run_from E o (own u p s) u = (Exn e, u)).
Proof. exact own_text. Qed.
Print Assumptions C53_own_text.

Definition ex_own : url := match url_after (plenty true) (L "//host#x") [Set_encoded_fragment (L "abcdefghij"); Set_encoded_fragment (L "x")] with Val u => u | _ => url0 end.
Definition ex_full : url := match make_url (plenty true) (L "//host#x") with Val u => u | _ => url0 end.
(** . *)
Definition ex_own_uri : uri := mk_uri None (Some (mk_authority None (L "host") None)) [] None (Some (L "x")).
Definition ex_new_uri : uri := mk_uri None (Some (mk_authority None (L "host") None)) [] None (Some (L "host")).
Example C53_example :
  rep (part_texts ex_own_uri) ex_own /\ has_bytes ex_own 2 (L "host") /\ has_text (Set_encoded_fragment (L "host")) (L "host") /\
  2 + length (L "host") <= first_changed (Set_encoded_fragment (L "host")) ex_own /\
  need (Set_encoded_fragment (L "host")) ex_own_uri ex_new_uri = 11 /\
  st_cap (u_st ex_own) = 17 /\ st_cap (u_st ex_full) = 8 /\
  (let r := run_from (plenty true) (Set_encoded_fragment (L "host")) (own ex_own 2 (L "host")) ex_own in
   encoded_url (view_of (snd r)) = Val (L "//host#host")) /\
  fst (run_from (plenty true) (Set_encoded_fragment (L "host")) (own ex_full 2 (L "host")) ex_full) = UB.
Proof.
  split; [|split; [exists (cells_of ex_own); split; vm_compute; reflexivity|]].
  - replace ex_own with (st (map Some (concat (part_texts ex_own_uri))) (skipn 8 (cells_of ex_own)) 17 17 2 (bounds 0 (part_texts ex_own_uri)) 0 0 host_name) by (vm_compute; reflexivity).
    apply rep_buf; [reflexivity|]. split; [vm_compute; reflexivity|]. split; apply Nat.leb_le; vm_compute; reflexivity.
  - do 2 (split; [apply Nat.leb_le; vm_compute; reflexivity|]).
    do 4 (split; [vm_compute; reflexivity|]). vm_compute; reflexivity.
Qed.

(** ** C54: segment edits *)

(** A view that ends before the position of the edit: as with a copy of the text,
    unless the buffer is reallocated; then the edit copies from freed memory.
    Third case: an edit that asserts with a copy (C47). *)
Theorem C54_own_segment :
  forall (E : env) (e : edit) (i : nat) (u : url) (a : uri) (p : nat) (s : str) (it : seg_it),
    env_ok E -> usable u a -> in_range e a -> edit_arg e = Some (i, s) -> has_bytes u p s -> s <> [] ->
    position (dbg E) u i = Val it -> p + length s <= si_off it ->
    (exists r u', run_edit E e u = (Val r, u') /\
       (not_moved u u' -> edit_from E e (own u p s) u = (Val r, u')) /\
       (~ not_moved u u' -> exists w, edit_from E e (own u p s) u = (UB, w))) \/
    (exists x, run_edit E e u = (Exn x, u) /\ edit_from E e (own u p s) u = (Exn x, u)) \/
    (dbg E = true /\ exists u', run_edit E e u = (Abort, u')).
Proof. exact own_edit. Qed.
Print Assumptions C54_own_segment.

Definition ex_edit : url := match url_after (plenty false) (L "/ab/c?x") [Set_encoded_fragment (L "abcdefghij"); Set_encoded_fragment (L "abcdefghijk"); Set_encoded_fragment []] with Val u => u | _ => url0 end.
Definition ex_edit_full : url := match make_url (plenty false) (L "/ab/c?x") with Val u => u | _ => url0 end.
Example C54_example :
  has_bytes ex_edit 1 (L "ab") /\ position false ex_edit 1 = Val (mk_seg_it 3 2) /\
  (let r := edit_from (plenty false) (Insert_encoded 1 (L "ab")) (own ex_edit 1 (L "ab")) ex_edit in
   is_val (fst r) = true /\ encoded_url (view_of (snd r)) = Val (L "/ab/ab/c?x") /\ st_allocs (u_st (snd r)) = st_allocs (u_st ex_edit)) /\
  (let r := edit_from (plenty false) (Replace 1 (L "ab")) (own ex_edit 1 (L "ab")) ex_edit in
   is_val (fst r) = true /\ encoded_url (view_of (snd r)) = Val (L "/ab/ab?x")) /\
  fst (edit_from (plenty false) (Insert_encoded 1 (L "ab")) (own ex_edit_full 1 (L "ab")) ex_edit_full) = UB.
Proof.
  split; [exists (cells_of ex_edit); split; vm_compute; reflexivity|]. split; [vm_compute; reflexivity|]. split; [split; [vm_compute; reflexivity|]; split; vm_compute; reflexivity|].
  split; [split; vm_compute; reflexivity|]. vm_compute; reflexivity.
Qed.

(** ** C55: replacing a URL by a piece of itself *)

(** A piece in the first half overlaps with its copy.  A piece that starts
    exactly where its copy will end has lost its first character to the
    terminating NUL.  Any later piece works. *)
Theorem C55_replaced_by_piece :
  forall (E : env) (u : url) (a : uri) (p : nat) (s : str) (pt : parts),
    rep (part_texts a) u -> has_bytes u p s -> s <> [] -> p + length s <= usize u -> parse_url (dbg E) s = Val pt ->
    (p < length s -> exists w, run_from E (Set_encoded_url s) (own u p s) u = (UB, w)) /\
    (length s < p -> run_from E (Set_encoded_url s) (own u p s) u = run E (Set_encoded_url s) u /\ exists u', run E (Set_encoded_url s) u = (Val tt, u')) /\
    (p = length s -> exists u', run_from E (Set_encoded_url s) (own u p s) u = (Val tt, u') /\ u_pt u' = pt /\ has_bytes u' 0 (NUL :: skipn 1 s)).
Proof. exact url_self. Qed.
Print Assumptions C55_replaced_by_piece.

Definition ex_piece : url := match make_url (plenty true) (L "ab/cd/ef/") with Val u => u | _ => url0 end.
Definition ex_piece_uri : uri := mk_uri None None (L "ab/cd/ef/") None None.
Example C55_example :
  rep (part_texts ex_piece_uri) ex_piece /\ has_bytes ex_piece 0 (L "ab/cd/ef/") /\ has_bytes ex_piece 3 (L "cd/") /\ has_bytes ex_piece 6 (L "ef/") /\
  fst (run_from (plenty true) (Set_encoded_url (L "ab/cd/ef/")) (own ex_piece 0 (L "ab/cd/ef/")) ex_piece) = UB /\
  (let r := run_from (plenty true) (Set_encoded_url (L "cd/")) (own ex_piece 3 (L "cd/")) ex_piece in
   encoded_url (view_of (snd r)) = Val [NUL; "d"%char; "/"%char]) /\
  (let r := run_from (plenty true) (Set_encoded_url (L "ef/")) (own ex_piece 6 (L "ef/")) ex_piece in
   encoded_url (view_of (snd r)) = Val (L "ef/")).
Proof.
  split; [|do 3 (split; [exists (cells_of ex_piece); split; vm_compute; reflexivity|]); split; [vm_compute; reflexivity|split; vm_compute; reflexivity]].
  replace ex_piece with (st (map Some (concat (part_texts ex_piece_uri))) [Some NUL] 9 9 1 (bounds 0 (part_texts ex_piece_uri)) (nseg (u_pt ex_piece)) 0 host_none) by (vm_compute; reflexivity).
  apply rep_buf; [reflexivity|]. split; [vm_compute; reflexivity|]. split; apply Nat.leb_le; vm_compute; reflexivity.
Qed.

(** ** C56: views taken before a modification *)

(** After a successful modifier, a string_view taken before dangles if the call
    needed more than the capacity, and else shows what is now at its offset. *)
Theorem C56_earlier_views :
  forall (E : env) (o : op) (a : uri) (u : url) (p : nat) (s : str) (a' : uri) (u' : url),
    env_ok E -> rep (part_texts a) u -> has_bytes u p s -> s <> [] -> effect E o a a' u u' ->
    (need o a a' <= st_cap (u_st u) -> p + length s <= usize u' ->
       src_read (own u p s) u' = (Val (firstn (length s) (skipn p (concat (part_texts a')))), u')) /\
    (st_cap (u_st u) < need o a a' -> src_read (own u p s) u' = (UB, u')).
Proof. exact view_after. Qed.
Print Assumptions C56_earlier_views.
(** Every successful modifier has such an effect (C16, C17). *)
Theorem C56_modifiers_have_effects :
  forall (E : env) (o : op) (a : uri) (u : url), env_ok E -> arg_ok o -> rep (part_texts a) u -> ~ breaks (dbg E) o a ->
    (exists a' u', run E o u = (Val tt, u') /\ does o a a' /\ effect E o a a' u u') \/ (exists e, run E o u = (Exn e, u)).
Proof. exact call_does. Qed.
Print Assumptions C56_modifiers_have_effects.
Example C56_example :
  (let r := run (plenty true) (Set_encoded_host (L "abc")) ex_own in
   fst r = Val tt /\ src_read (own ex_own 2 (L "host")) (snd r) = (Val (L "abc#"), snd r)) /\
  (let r := run (plenty true) (Set_encoded_query (L "abc")) ex_full in
   fst r = Val tt /\ src_read (own ex_full 2 (L "host")) (snd r) = (UB, snd r)).
Proof. vm_compute. auto. Qed.
