(** * PropertiesMisc: storage, schemes, static_pool (C31, C32, C33, C34, C40, C41) *)

From Verif Require Import Base ModelChar ModelParts ModelView ModelUrl ModelMisc SpecChar SpecGrammar SpecLink SpecView SpecStore SpecUrl
  SpecHistory SpecSetters SpecMisc ProofsSetters ProofsMisc.

(** ** C31: storage *)

(** After any sequence of reserve, resize and writes inside the capacity, with
    any allocation failures: the size is at most the capacity, the buffer has
    room for the terminator, and destroying the storage leaves no block: every
    block was released exactly once, with the size it was allocated with. *)
Theorem C31_storage_is_sound :
  forall s : astorage, storage_state s ->
    s_size s <= s_cap s /\ (forall id b, s_buf s = Some (id, b) -> length b = s_cap s + 1) /\ heap_after (a_destroy s) = Some [].
Proof. exact storage_sound. Qed.
Print Assumptions C31_storage_is_sound.
(** Each call succeeds, or throws bad_alloc without any effect.  The capacity
    does not decrease; nothing is allocated if the request fits; the characters
    below size() are kept. *)
Theorem C31_storage_call :
  forall (E : env) (o : store_op) (s : astorage), storage_state s -> env_ok E -> in_bounds o s ->
    (exists s', run_store E o s = (Val tt, s') /\ s_cap s <= s_cap s' /\
       (wants o <= s_cap s -> s_log s' = s_log s /\ s_cap s' = s_cap s) /\
       (forall i, i < s_size s -> ~ stores_at o i -> content s' i = content s i) /\
       (match o with Resize n => s_size s' = n /\ (s_buf s' <> None -> content s' n = Some (Some NUL)) | _ => s_size s' = s_size s end)) \/
    (run_store E o s = (Exn bad_alloc, s) /\ s_cap s < wants o).
Proof. exact storage_call. Qed.
Print Assumptions C31_storage_call.
Example C31_example :
  let s1 := snd (run_store (plenty true) (Resize 3) new_storage) in
  let s2 := snd (run_store (plenty true) (Write 0 (Some "x"%char)) s1) in
  let s3 := snd (run_store (plenty true) (Resize 5) s2) in
  content s3 0 = Some (Some "x"%char) /\ s_cap s3 = 6 /\
  a_destroy s3 = [Free 2 7; Free 1 4; Alloc 2 7; Alloc 1 4] /\
  heap_after [Free 2 6; Free 1 4; Alloc 2 7; Alloc 1 4] = None /\ heap_after [Free 1 4; Free 1 4; Alloc 1 4] = None.
Proof. vm_compute. auto. Qed.
(** This is the storage inside the model of the mutable URL. *)
Theorem C31_url_uses_this_storage :
  forall (E : env) (n : nat) (s : astorage) (pt : parts) (p : option nat),
    snd (st_resize E n (mk_url (without_log s) pt p)) = mk_url (without_log (snd (a_resize E n s))) pt p /\
    omap (fun _ => tt) (fst (st_resize E n (mk_url (without_log s) pt p))) = omap (fun _ => tt) (fst (a_resize E n s)).
Proof. exact resize_is_url_resize. Qed.
Print Assumptions C31_url_uses_this_storage.
(** The same for the calls of a URL.  set_password_part(":") may reallocate
    although its result fits, as it first adds and then removes "//". *)
Theorem C31_url_call :
  forall (E : env) (o : op) (a : uri) (u : url) (x : unit) (u' : url),
    env_ok E -> arg_ok o -> rep (part_texts a) u -> ~ breaks (dbg E) o a -> run E o u = (Val x, u') ->
    st_cap (u_st u) <= st_cap (u_st u') /\ usize u' <= st_cap (u_st u') /\
    (usize u' <= st_cap (u_st u) -> (forall c, o <> Set_password_part [c]) ->
       st_allocs (u_st u') = st_allocs (u_st u) /\ st_cap (u_st u') = st_cap (u_st u)).
Proof. exact url_storage. Qed.
Print Assumptions C31_url_call.
Theorem C31_url_history :
  forall (P : op -> Prop) (d : bool) (u0 u : url), (exists a, rep (part_texts a) u0) -> history P d u0 u ->
    st_cap (u_st u0) <= st_cap (u_st u) /\ usize u <= st_cap (u_st u) /\ st_size (u_st u) <= st_cap (u_st u).
Proof. exact url_storage_history. Qed.
Print Assumptions C31_url_history.
Example C31_url_example :
  exists u u', make_url (plenty true) (L "http://u:p@h:80/a/b?k=v#f") = Val u /\ run (plenty true) (Set_encoded_query (L "some-longer-query")) u = (Val tt, u') /\
    st_cap (u_st u) = 25 /\ st_cap (u_st u') = 50 /\ st_allocs (u_st u') = 2.
Proof. do 2 eexists. split; [vm_compute; reflexivity|]. vm_compute. auto. Qed.
(** ** C44: growth

    In the upper half of the possible capacities the storage cannot grow,
    although the request is below max_size(). *)
Theorem C44_growth_refuted :
  exists (E : env) (s : astorage), env_ok E /\ storage_state s /\ s_cap s + 1 < max_size E /\
    (forall k n, n <= max_size E -> alloc_ok E k n = true) /\ fst (run_store E (Resize (s_cap s + 1)) s) = Exn bad_alloc.
Proof.
  exists (plenty true), (snd (run_store (plenty true) (Resize 2000) new_storage)). split; [exact (plenty_ok true)|].
  split; [eapply storage_step with (E := plenty true) (o := Resize 2000); [constructor|exact (plenty_ok true)|exact I|apply surjective_pairing]|].
  split; [apply Nat.ltb_lt; vm_compute; reflexivity|]. split; [intros k n H; apply Nat.leb_le, H|]. vm_compute. reflexivity.
Qed.
Print Assumptions C44_growth_refuted.

(** ** C32: scheme recognition *)

Theorem C32_known_iff_name :
  forall (s : str) (k : scheme) (n : str), scheme_name k = Some n -> (string_to_scheme s = Val k <-> same_ignoring_case s n).
Proof. exact string_to_scheme_names. Qed.
Print Assumptions C32_known_iff_name.
Theorem C32_unknown_otherwise_partial :
  forall s : str, ascii_text s -> (string_to_scheme s = Val sch_unknown <-> ~ special s).
Proof. exact string_to_scheme_unknown. Qed.
Print Assumptions C32_unknown_otherwise_partial.
Theorem C32_to_string_inverse :
  forall (k : scheme) (n : str), scheme_name k = Some n -> scheme_to_string k = n /\ string_to_scheme n = Val k.
Proof. exact to_string_inverse. Qed.
Print Assumptions C32_to_string_inverse.
Theorem C32_is_special_partial :
  forall s : str, ascii_text s -> (is_special_scheme s = Val true <-> special s) /\ (is_special_scheme s = Val false <-> ~ special s).
Proof. exact is_special_iff. Qed.
Print Assumptions C32_is_special_partial.
(** Every scheme of a URL is ASCII. *)
Theorem C32_schemes_of_urls :
  forall s : str, wf_scheme accepted s -> ascii_text s.
Proof. exact wf_scheme_ascii. Qed.
Print Assumptions C32_schemes_of_urls.
Example C32_example :
  string_to_scheme (L "hTTpS") = Val sch_https /\ string_to_scheme (L "wsx") = Val sch_unknown /\
  is_special_scheme (L "FILE") = Val true /\ is_special_scheme (L "mailto") = Val false /\ same_ignoring_case (L "WsS") (L "wss").
Proof. vm_compute. auto 10. Qed.
(** On other strings tolower is called with a negative argument. *)
Theorem C32_negative_characters_refuted :
  exists s : str, string_to_scheme s = UB /\ ~ special s.
Proof.
  exists ["200"%char; "s"%char]. split; [vm_compute; reflexivity|]. intros (k & n & Hk & Hs). destruct k; try discriminate Hk; injection Hk as <-; vm_compute in Hs; discriminate Hs.
Qed.
Print Assumptions C32_negative_characters_refuted.

(** ** C33: recognition after normalisation *)

Theorem C33_recognised_as_before :
  forall s : str, ascii_text s -> string_to_scheme (map lower s) = string_to_scheme s.
Proof. exact recognised_after_lowering. Qed.
Print Assumptions C33_recognised_as_before.
Example C33_recognised_example : string_to_scheme (map lower (L "HTTP")) = Val sch_http /\ map lower (L "HTTP") = L "http".
Proof. vm_compute. auto. Qed.

(** ** C34: static_pool *)

(** Requests of characters (the only ones in the library), in any number and of
    any size: the blocks are inside the buffer and pairwise disjoint.  [W] is
    the size of the address space. *)
Theorem C34_character_blocks :
  forall (W base cap : N) (ns : list N), (0 < base)%N -> (base + cap < W)%N -> Forall (fun n => (n < W)%N) ns ->
    let got := fst (requests W (map (fun n => (n, 1%N)) ns) (new_pool base cap) []) in
    Forall (within base cap) got /\ ForallOrdPairs disjoint got.
Proof. exact pool_blocks_char. Qed.
Print Assumptions C34_character_blocks.
(** Other alignments: if they divide the address of the end of the buffer. *)
Theorem C34_blocks_partial :
  forall (W base cap : N) (rs : list (N * N)), (0 < base)%N -> (base + cap < W)%N ->
    Forall (fun r => (fst r < W /\ 0 < snd r < W /\ (base + cap) mod snd r = 0)%N) rs ->
    let got := fst (requests W rs (new_pool base cap) []) in
    Forall (within base cap) got /\ ForallOrdPairs disjoint got.
Proof. exact pool_blocks. Qed.
Print Assumptions C34_blocks_partial.
(** Blocks that are given back in between, in any order, with whatever arguments:
    no memory is given out twice. *)
Theorem C34_given_back_partial :
  forall (W base cap : N) (cs : list pool_call), (0 < base)%N -> (base + cap < W)%N ->
    Forall (fun c => match c with Get n a => (n < W /\ 0 < a < W /\ (base + cap) mod a = 0)%N | Give _ _ _ => True end) cs ->
    let got := fst (pool_session W cs (new_pool base cap) []) in
    Forall (within base cap) got /\ ForallOrdPairs disjoint got.
Proof. exact pool_blocks_given_back. Qed.
Print Assumptions C34_given_back_partial.
Example C34_given_back_example :
  pool_session (2 ^ 64) [Get 5 1; Give 4096 5 1; Get 3 1; Get 1 1]%N (new_pool 4096 8) [] = ([(4101, 3); (4096, 5)]%N, mk_pool 4096 8 4104).
Proof. vm_compute. reflexivity. Qed.
Theorem C34_blocks_are_aligned_partial :
  forall (W bytes align : N) (p : pool), pool_ok W p -> (0 < align)%N -> (align < W)%N -> (bytes < W)%N ->
    ((p_base p + p_capacity p) mod align = 0)%N ->
    forall (r : outcome N) (p' : pool), pool_allocate W bytes align p = (r, p') ->
      pool_ok W p' /\ p_base p' = p_base p /\ p_capacity p' = p_capacity p /\
      (forall u, r = Val u -> aligned align (u, bytes) /\ (p_top p <= u)%N /\ p_top p' = (u + bytes)%N /\ within (p_base p) (p_capacity p) (u, bytes)).
Proof. exact pool_block. Qed.
Print Assumptions C34_blocks_are_aligned_partial.
Theorem C34_failure_changes_nothing :
  forall (W bytes align : N) (p : pool) (r : outcome N) (p' : pool), pool_allocate W bytes align p = (r, p') ->
    (exists u, r = Val u) \/ (r = Exn bad_alloc /\ p' = p).
Proof. exact pool_failure_changes_nothing. Qed.
Print Assumptions C34_failure_changes_nothing.
(** The exact behaviour for every alignment: past the end of the buffer the
    remaining space is computed modulo the address space. *)
Theorem C34_exact :
  forall (W bytes align : N) (p : pool), pool_ok W p -> (0 < align)%N -> (align < W)%N -> (bytes < W)%N ->
    let stop := (p_base p + p_capacity p)%N in
    let r := round_up align (p_top p) in
    pool_allocate W bytes align p =
      if (W <=? p_top p + align - 1)%N then (Exn bad_alloc, p)
      else if (r <=? stop)%N then
        if (bytes <=? stop - r)%N then (Val r, mk_pool (p_base p) (p_capacity p) (r + bytes)%N) else (Exn bad_alloc, p)
      else
        if (bytes <=? W - (r - stop))%N then (Val r, mk_pool (p_base p) (p_capacity p) ((r + bytes) mod W)%N) else (Exn bad_alloc, p).
Proof. exact pool_allocate_exact. Qed.
Print Assumptions C34_exact.
Example C34_example :
  requests (2 ^ 64) [(5, 1); (9, 1); (3, 1); (1, 1)]%N (new_pool 4096 8) [] = ([(4101, 3); (4096, 5)]%N, mk_pool 4096 8 4104) /\
  requests (2 ^ 64) [(5, 1); (2, 4)]%N (new_pool 4096 16) [] = ([(4104, 2); (4096, 5)]%N, mk_pool 4096 16 4106).
Proof. vm_compute. auto. Qed.
(** A buffer of ten bytes: after nine of them, eight bytes aligned to eight are
    given out beyond its end. *)
Theorem C34_alignment_refuted :
  exists (base cap : N) (rs : list (N * N)) (b : block), (base mod 8 = 0)%N /\ (base + cap < 2 ^ 64)%N /\
    In b (fst (requests (2 ^ 64) rs (new_pool base cap) [])) /\ (base + cap < fst b)%N.
Proof. exists 4096%N, 10%N, [(9, 1); (8, 8)]%N, (4112, 8)%N. repeat split; try (vm_compute; reflexivity). left. vm_compute. reflexivity. Qed.
Print Assumptions C34_alignment_refuted.
(** allocate(n) of the allocator for a larger type multiplies modulo the address
    space: a request of 2^61 + 1 objects of eight bytes gives a block of eight
    bytes. *)
Theorem C34_overflow_refuted :
  exists (n : N) (p p' : pool) (u : N), pool_ok (2 ^ 64) p /\
    pool_allocate_n (2 ^ 64) 8 8 n p = (Val u, p') /\ (p_capacity p < 8 * n)%N.
Proof.
  exists (2 ^ 61 + 1)%N, (new_pool 4096 64). do 2 eexists. split; [repeat split; vm_compute; congruence|]. split; [vm_compute; reflexivity|]. vm_compute; reflexivity.
Qed.
Print Assumptions C34_overflow_refuted.

(** ** C40: copy assignment *)

(** Assigning a url has no effect. *)
Theorem C40_copy_assignment_refuted :
  exists x y : url, make_url (plenty true) (L "http://a") = Val x /\ make_url (plenty true) (L "//b") = Val y /\
    encoded_url (view_of (copy_assign y x)) = Val (L "//b") /\ encoded_url (view_of x) = Val (L "http://a").
Proof. do 2 eexists. split; [vm_compute; reflexivity|]. vm_compute. auto. Qed.
Print Assumptions C40_copy_assignment_refuted.

(** ** C41: platforms where char is unsigned *)

(** There any two characters after "%" are accepted as an escape. *)
Theorem C41_unsigned_char_exact :
  forall (k : comp) (s : str), check_unsigned (set_of k) s = true <-> pct_text (fun _ => true) (allowed k) s.
Proof. exact check_unsigned_spec. Qed.
Print Assumptions C41_unsigned_char_exact.
Theorem C41_platforms_agree_refuted :
  exists (k : comp) (s : str), check (set_of k) s = false /\ check_unsigned (set_of k) s = true.
Proof. exists k_query, (L "%zz"). vm_compute. auto. Qed.
Print Assumptions C41_platforms_agree_refuted.
Example C41_example : check_unsigned (set_of k_query) (L "%4") = false /\ pct_text (fun _ => true) (allowed k_query) (L "a%zz").
Proof. split; [vm_compute; reflexivity|]. apply pt_char; [reflexivity|]. apply pt_esc; auto. apply pt_nil. Qed.
