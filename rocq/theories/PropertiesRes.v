(** * PropertiesRes: ranges held across a modification, error codes,
      allocations, noexcept, and values that stay

    [rep (part_texts a) u]: [u] holds a URL with components [a]. *)

From Verif Require Import Base ModelChar ModelParts ModelView ModelUrl ModelRes SpecChar SpecGrammar SpecLink SpecView SpecStore SpecUrl SpecHistory
  SpecSetters SpecSegments SpecRes ProofsHistory ProofsSetters ProofsRes.

(** ** C77: a range of a const url, used after a modification *)

(** [hold u]: the result of segments() or params() on a const [u];
    [held_view (hold u) u']: what it sees once the url has become [u'].  If the
    call fitted into the capacity that is the modified URL; otherwise begin() of
    a non-empty range reads freed memory. *)
Theorem C77_held_ranges :
  forall (d : bool) (E : env) (o : op) (a a' : uri) (u u' : url),
    rep (part_texts a) u -> u_s u <> None -> effect E o a a' u u' ->
    (need o a a' <= st_cap (u_st u) -> held_view (hold u) u' = view_of u') /\
    (st_cap (u_st u) < need o a a' ->
       (uri_path a' <> [] -> segments_size (view_of u') <> 0 ->
          seg_begin (held_view (hold u) u') (seg_parse_view d (held_view (hold u) u')) = UB) /\
       (uri_query a' <> None -> params_size (view_of u') <> 0 -> par_begin d (held_view (hold u) u') = UB)).
Proof. exact held_range. Qed.
Print Assumptions C77_held_ranges.
(** Every modifier that returns has such an effect (C56). *)
Definition ex_held : url := match make_url (plenty true) (L "/a/b?k=v") with Val u => u | _ => url0 end.
Definition ex_held_uri : uri := mk_uri None None (L "/a/b") (Some (L "k=v")) None.
Example C77_example :
  rep (part_texts ex_held_uri) ex_held /\ u_s ex_held <> None /\ st_cap (u_st ex_held) = 8 /\
  (let u' := snd (run (plenty true) (Set_fragment (L "f")) ex_held) in
   need (Set_fragment (L "f")) ex_held_uri (with_fragment (Some (L "f")) ex_held_uri) = 10 /\
   encoded_url (view_of u') = Val (L "/a/b?k=v#f") /\
   seg_begin (held_view (hold ex_held) u') (seg_parse_view true (held_view (hold ex_held) u')) = UB /\
   par_begin false (held_view (hold ex_held) u') = UB) /\
  (let u' := snd (run (plenty true) (Set_encoded_path (L "/x/y")) ex_held) in held_view (hold ex_held) u' = view_of u').
Proof.
  split; [|split; [discriminate|]].
  - replace ex_held with (st (map Some (concat (part_texts ex_held_uri))) [Some NUL] 8 8 1 (bounds 0 (part_texts ex_held_uri)) (nseg (u_pt ex_held)) (nparam (u_pt ex_held)) host_none) by (vm_compute; reflexivity).
    apply rep_buf; [reflexivity|]. split; [vm_compute; reflexivity|]. split; apply Nat.leb_le; vm_compute; reflexivity.
  - split; [vm_compute; reflexivity|]. split; [|vm_compute; reflexivity]. split; [vm_compute; reflexivity|]. split; [vm_compute; reflexivity|]. split; vm_compute; reflexivity.
Qed.

(** ** C78: error codes *)

(** [ec == condition::parse_error] holds for exactly the library's own error
    codes (and the condition itself). *)
Theorem C78_parse_error_condition :
  forall (ev : Z) (c : category),
    code_is (ev, c) condition_parse_error = true <->
    (c = c_error /\ exists e, (ev, c) = make_error_code e) \/ (ev, c) = condition_parse_error.
Proof. exact parse_error_codes. Qed.
Print Assumptions C78_parse_error_condition.
(** The codes are those from 1 to 15, all distinct. *)
Theorem C78_values :
  (forall e, (1 <= error_value e <= 15)%Z) /\ (forall e e', error_value e = error_value e' -> e = e') /\
  (forall ev, ~ (1 <= ev <= 15)%Z -> code_is (ev, c_error) condition_parse_error = false) /\
  (forall e e', parser_error e = parser_error e' -> e = e').
Proof. exact error_values. Qed.
Print Assumptions C78_values.
(** Distinct errors have distinct messages; a number that is no error code gets
    the message of [error::no_match]. *)
Theorem C78_messages :
  (forall e e', error_message (error_value e) = error_message (error_value e') -> e = e') /\
  (forall ev, ~ (1 <= ev <= 15)%Z -> error_message ev = error_message (error_value e_no_match)).
Proof. exact error_messages. Qed.
Print Assumptions C78_messages.
Example C78_example :
  code_is (make_error_code e_port_overflow) condition_parse_error = true /\ code_is (0%Z, c_error) condition_parse_error = false /\
  code_is (16%Z, c_error) condition_parse_error = false /\ code_is (1%Z, c_other 0) condition_parse_error = false /\
  error_message 10 = L "port overflow" /\ error_message 0 = L "no match for element".
Proof. vm_compute. repeat split; reflexivity. Qed.

(** ** C79: few allocations *)

(** Any sequence of calls, however long and whatever happens in it, allocates at
    most logarithmically many times in the capacity it ends with. *)
Theorem C79_few_allocations :
  forall (u : url), any_calls u -> st_allocs (u_st u) <= Nat.log2 (st_cap (u_st u)) + 1.
Proof. exact few_allocations. Qed.
Print Assumptions C79_few_allocations.
(** A url that never was longer than [n] has a capacity of at most 2n+2. *)
Theorem C79_capacity :
  forall (d : bool) (n : nat) (u : url), short_history d n u ->
    st_cap (u_st u) <= 2 * n + 2 /\ st_allocs (u_st u) <= Nat.log2 (n + 1) + 2.
Proof. exact short_bounds. Qed.
Print Assumptions C79_capacity.
Example C79_example :
  exists u, short_history true 12 u /\ any_calls u /\ encoded_url (view_of u) = Val (L "http:#0123ab") /\ st_cap (u_st u) = 12 /\ st_allocs (u_st u) = 2.
Proof.
  set (u1 := snd (run (plenty true) (Set_scheme (L "http")) url0)). set (u2 := snd (run (plenty true) (Set_fragment (L "0123ab")) u1)). exists u2.
  assert (H1 : short_history true 12 u1).
  { apply (short_call true 12 (plenty true) (Set_scheme (L "http")) url0 (Val tt) u1); [constructor|apply plenty_ok|reflexivity|exact I|intros a R x; exact x|vm_compute; reflexivity|].
    apply Nat.leb_le. vm_compute. reflexivity. }
  assert (H2 : short_history true 12 u2).
  { apply (short_call true 12 (plenty true) (Set_fragment (L "0123ab")) u1 (Val tt) u2); [exact H1|apply plenty_ok|reflexivity|exact I|intros a R x; exact x|vm_compute; reflexivity|].
    apply Nat.leb_le. vm_compute. reflexivity. }
  split; [exact H2|]. split; [exact (short_any _ _ _ H2)|]. split; [vm_compute; reflexivity|]. split; vm_compute; reflexivity.
Qed.

(** ** C80: functions declared noexcept do not throw *)

(** For every view, whatever its memory and offsets. *)
Theorem C80_observers :
  forall (d : bool) (v : view),
    observers_do_not_throw d v /\ segments_do_not_throw d v (seg_parse_view d v) /\ segments_do_not_throw d v (seg_parse_base d v) /\
    params_do_not_throw d v.
Proof. exact all_noexcept. Qed.
Print Assumptions C80_observers.
(** Of the modifiers, normalize_scheme and the two erase functions are noexcept;
    erase needs that the size is not above the capacity. *)
Theorem C80_modifiers :
  forall (E : env) (u : url),
    ~ throws (fst (normalize_scheme E u)) /\
    (usize u <= st_cap (u_st u) ->
       (forall p, ~ throws (fst (seg_erase E p u))) /\ (forall p q, ~ throws (fst (seg_erase2 E p q u)))).
Proof. exact modifiers_noexcept. Qed.
Print Assumptions C80_modifiers.
Example C80_example :
  usize ex_held <= st_cap (u_st ex_held) /\
  (exists r, fst (run_edit (mk_env true 4000 3000 (fun _ _ => false)) (Erase 0) ex_held) = Val r) /\
  throws (fst (run_edit (mk_env true 4000 3000 (fun _ _ => false)) (Insert 0 (L "x")) ex_held)).
Proof.
  split; [apply Nat.leb_le; vm_compute; reflexivity|]. split; [eexists; vm_compute; reflexivity|eexists; vm_compute; reflexivity].
Qed.

(** ** C81: what was set stays until it is set again *)

(** After a successful call [o], and any number of further calls, successful or
    not, that name other components, the getters of [o] still return what [o]
    set. *)
Theorem C81_values_stay :
  forall (d : bool) (E : env) (o : op) (a : uri) (u1 : url) (x : unit) (u2 u3 : url),
    env_ok E -> dbg E = d -> arg_ok o -> rep (part_texts a) u1 -> ~ misbehaves d o a ->
    run E o u1 = (Val x, u2) -> history (elsewhere o) d u2 u3 -> reads_back d o (view_of u3).
Proof. exact value_stays. Qed.
Print Assumptions C81_values_stay.
Example C81_example :
  let os := [Set_host (L "a b"); Set_query (L "q q"); Set_scheme (L "x"); Set_port_n 80%N; Set_user (L "u:u"); Set_encoded_path (L "/p"); Set_password (L "p@"); Set_fragment (L "#")] in
  seen (url_after (plenty true) [] os) encoded_url = Val (L "x://u%3Au:p%40@a%20b:80/p?q%20q#%23") /\
  seen (url_after (plenty true) [] os) get_host = Val (L "a b") /\
  forallb (leaves (Set_host (L "a b"))) (tl os) = true /\ leaves (Set_host (L "a b")) (Set_encoded_authority []) = false.
Proof. vm_compute. repeat split; reflexivity. Qed.
