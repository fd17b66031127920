(** * PropertiesExact: exact versions of properties that do not hold as first stated

    [rep (part_texts a) u]: [u] holds a URL with components [a].  [intact],
    [ruined], [since], [host_since], [generous], [negative_inside] and
    [same_but_slashes] are defined in SpecExact.v. *)

From Verif Require Import Base ModelChar ModelParts ModelView ModelUrl ModelMisc SpecChar SpecGrammar SpecLink SpecView SpecStore SpecUrl SpecHistory
  SpecSetters SpecIter SpecSegments SpecMisc SpecExact ProofsHistory ProofsSetters ProofsSegments ProofsExact.


(** ** C60: exactly which calls damage a URL *)

(** [breaks] lists them: storing a non-empty userinfo as a whole, an empty port
    where there is no authority, and (with assertions) removing the user of an
    authority without userinfo.  All other calls leave the URL [intact]. *)
Theorem C60_exactly_these_calls_damage :
  forall (E : env) (o : op) (a : uri) (u : url), env_ok E -> arg_ok o -> rep (part_texts a) u ->
    (~ breaks (dbg E) o a -> intact E o a u) /\
    (breaks (dbg E) o a -> ruined E o u \/ exists e, no_room e /\ run E o u = (Exn e, u)).
Proof. exact exactly_these_ruin. Qed.
Print Assumptions C60_exactly_these_calls_damage.
(** And so does every sequence of other calls, from any constructor. *)
Theorem C60_other_histories_are_sound :
  forall (d : bool) (u : url), reachable d u ->
    sound_memory u /\ exists a, rep (part_texts a) u /\ shows d (view_of u) a /\ shows_decoded d (view_of u) a.
Proof. exact reachable_sound. Qed.
Print Assumptions C60_other_histories_are_sound.
Example C60_example :
  breaks false (Set_encoded_userinfo (L "u")) empty_uri /\ breaks true (Set_port_part (L ":")) empty_uri /\
  breaks true (Set_user []) (with_host (L "h") empty_uri) /\ ~ breaks false (Set_user []) (with_host (L "h") empty_uri) /\
  ~ breaks true (Set_user (L "u")) empty_uri /\ rep (part_texts empty_uri) url0.
Proof.
  split; [|split; [|split; [|split; [|split]]]].
  - split; [discriminate|]. apply pt_char; [reflexivity|constructor].
  - split; reflexivity.
  - split; [reflexivity|]. split; [discriminate|reflexivity].
  - intros (H & _). discriminate.
  - intros H. exact H.
  - exact (rep_null (part_texts empty_uri) 0 0 host_none eq_refl eq_refl).
Qed.

(** ** C61: exactly when the text of a url can be parsed again *)

Theorem C61_reparses_iff_the_path_fits :
  forall (d : bool) (u : url), reachable d u ->
    exists a, shows d (view_of u) a /\
      ((exists v, make_url_view d (recompose a) = Val v /\ shows d v a) <-> wf_path accepted a).
Proof. exact reachable_reparse. Qed.
Print Assumptions C61_reparses_iff_the_path_fits.
Example C61_example :
  seen (url_after (plenty true) (L "a/b") [Set_scheme (L "x")]) encoded_url = Val (L "x:a/b") /\
  seen (url_after (plenty true) (L "a/b") [Set_host (L "h")]) encoded_url = Val (L "//ha/b") /\
  ~ wf_path accepted (with_path (L "a/b") (with_host (L "h") empty_uri)).
Proof. split; [vm_compute; reflexivity|]. split; [vm_compute; reflexivity|]. intros (_ & [H|(r & H)]); discriminate. Qed.

(** ** C62, C63: exactly which ranges can be iterated *)

(** A range-for loop over the segments of a url_view or const url ends, and then
    it has seen them all, exactly if there is no query or no path. *)
Theorem C62_view_segments_exactly :
  forall (d : bool) (v : view) (a : uri), shown v a ->
    ((exists fuel, seg_all d v (seg_parse_view d v) fuel = Val (segments_of (uri_path a))) <-> uri_query a = None \/ uri_path a = []) /\
    ((exists fuel l, seg_all d v (seg_parse_view d v) fuel = Val l) <-> uri_query a = None \/ uri_path a = []).
Proof. exact view_segments_iff. Qed.
Print Assumptions C62_view_segments_exactly.
(** Over the parameters: exactly if [iterable], and they are the usual ones
    exactly if all but the last are written with "=". *)
Theorem C63_params_exactly :
  forall (d : bool) (v : view) (a : uri), shown v a ->
    ((exists fuel, par_all d v fuel = Val (params_of a)) <-> iterable a) /\
    ((exists fuel l, par_all d v fuel = Val l) <-> iterable a) /\
    (forall q, uri_query a = Some q ->
       (params_of a = map plain (form_params q) /\ raw_params a = form_params q) <-> all_but_last_valued (form_params q)).
Proof. exact params_iff. Qed.
Print Assumptions C63_params_exactly.
Definition with_frag : uri := mk_uri None None (L "a") None (Some []).
Definition with_param : uri := mk_uri None None [] (Some (L "a=")) (Some []).
Example C62_C63_example :
  (exists v, make_url_view true (L "a#") = Val v /\ shown v with_frag /\ seg_all true v (seg_parse_view true v) 2 = Val [L "a"]) /\
  (exists v, make_url_view true (L "?a=#") = Val v /\ shown v with_param /\ par_all true v 2 = Val [(L "a", L "")]).
Proof.
  assert (W1 : wf accepted with_frag).
  { unfold wf, with_frag. cbn [uri_scheme uri_authority uri_path uri_query uri_fragment].
    split; [discriminate|]. split; [discriminate|]. split; [|split; [discriminate|intros q E; injection E as <-; constructor]].
    right. right. split; [split; [apply pt_char; [reflexivity|constructor]|split; [discriminate|intros r E; discriminate E]]|].
    intros x y E. destruct x as [|z [|z' x]]; discriminate E. }
  assert (W2 : wf accepted with_param).
  { unfold wf, with_param. cbn [uri_scheme uri_authority uri_path uri_query uri_fragment].
    split; [discriminate|]. split; [discriminate|]. split; [left; reflexivity|]. split; [|intros q E; injection E as <-; constructor].
    intros q E. injection E as <-. apply pt_char; [reflexivity|]. apply pt_char; [reflexivity|constructor]. }
  split; eexists; (split; [vm_compute; reflexivity|]); (split; [|vm_compute; reflexivity]); (apply (shown_view _ _ true); [assumption|vm_compute; reflexivity]).
Qed.

(** ** C64: exactly where decrementing a parameter iterator leads *)

(** To the parameter before, except that the first one is reached with the sizes
    of the second, and that a key containing "&" is entered after its last "&":
    what is read there is the rest of the key, with the right value. *)
Theorem C64_decrement_exactly :
  forall (d : bool) (v : view) (a : uri), shown v a -> iterable a ->
    exists pos, positions (par_begin d v) (par_end d v) (par_incr d v) (par_deref d v) (par_eq d) (params_of a) pos /\
    forall i k o, nth_error (raw_params a) i = Some (k, o) ->
      (~ In "&"%char k -> 0 < i -> par_decr d v (pos (S i)) = Val (pos i)) /\
      (~ In "&"%char k -> i = 0 -> par_decr d v (pos 1) = Val (mk_par_it (pi_off (pos 0)) (pi_nk (pos 1)) (pi_nv (pos 1)))) /\
      (forall x y, k = x ++ "&"%char :: y -> ~ In "&"%char y ->
         exists it, par_decr d v (pos (S i)) = Val it /\ pi_off it = pi_off (pos i) + S (length x) /\ par_deref d v it = Val (y, same o)).
Proof. exact params_backwards. Qed.
Print Assumptions C64_decrement_exactly.
Example C64_example :
  raw_params (mk_uri None None [] (Some (L "a=1&b&c=2")) None) = [(L "a", Some (L "1")); (L "b&c", Some (L "2"))] /\
  exists v e it, make_url_view true (L "?a=1&b&c=2") = Val v /\ par_end true v = Val e /\ par_decr true v e = Val it /\ par_deref true v it = Val (L "c", L "2").
Proof.
  split; [vm_compute; reflexivity|]. do 3 eexists. split; [vm_compute; reflexivity|]. split; [vm_compute; reflexivity|]. split; [vm_compute; reflexivity|]. vm_compute; reflexivity.
Qed.

(** ** C65: exactly what an edit of a segment does *)

(** It is the list operation if the text is valid, there is room and the edit
    does not reach the end of a path without a query in a debug build; then the
    change is made and the assertion fires.  Otherwise nothing changes. *)
Theorem C65_edits_exactly :
  forall (E : env) (u : url) (a : uri) (e : edit),
    env_ok E -> editable (dbg E) u a -> in_range e a ->
    (text_valid e -> ~ asserts (dbg E) e a ->
       edits E u a (edit_need e u a) (list_edit e (the_segments a)) (returned e) (run_edit E e u)) /\
    (text_valid e -> asserts (dbg E) e a ->
       edits_and_aborts E u a (edit_need e u a) (until_assertion e (the_segments a)) (run_edit E e u)) /\
    (~ text_valid e -> run_edit E e u = (Exn invalid_part, u)).
Proof. exact edit_ok. Qed.
Print Assumptions C65_edits_exactly.
Theorem C65_edit_sequences :
  forall (d : bool) (u : url) (a : uri) (es : list edit) (u' : url), editable d u a -> edit_history d u es u' ->
    editable d u' (with_segments (list_edits es (the_segments a)) a) /\
    the_segments (with_segments (list_edits es (the_segments a)) a) = list_edits es (the_segments a) /\
    host (u_pt u') = host (u_pt u).
Proof. exact edit_history_ok. Qed.
Print Assumptions C65_edit_sequences.
Example C65_example :
  list_edit (Replace 0 (L "b")) [L "a"] = [L "b"] /\ until_assertion (Replace 0 (L "b")) [L "a"] = [] /\
  (exists u p u', make_url (plenty false) (L "//h/a") = Val u /\ run_edit (plenty false) (Replace 0 (L "b")) u = (Val p, u') /\ encoded_url (view_of u') = Val (L "//h/b")) /\
  (exists u u', make_url (plenty true) (L "//h/a") = Val u /\ run_edit (plenty true) (Replace 0 (L "b")) u = (Abort, u') /\ encoded_url (view_of u') = Val (L "//h")).
Proof.
  split; [reflexivity|]. split; [reflexivity|]. split.
  - do 3 eexists. split; [vm_compute; reflexivity|]. split; [vm_compute; reflexivity|]. vm_compute; reflexivity.
  - do 2 eexists. split; [vm_compute; reflexivity|]. split; [vm_compute; reflexivity|]. vm_compute; reflexivity.
Qed.

(** ** C66, C67: exactly what the counters and the host type say *)

(** The counters are those of the components that the URL had when it was last
    replaced as a whole by a non-empty string, or constructed. *)
Theorem C66_counters_describe_the_last_replacement :
  forall (d : bool) (u0 : url) (b : uri), fresh u0 -> rep (part_texts b) u0 ->
    forall (u : url) (c : uri), since d u0 b u c -> right_counts (view_of u) c.
Proof. exact counters_describe. Qed.
Print Assumptions C66_counters_describe_the_last_replacement.
Theorem C66_every_history_has_one :
  forall (d : bool) (u0 u : url), fresh u0 -> history any d u0 u ->
    exists b c, rep (part_texts b) u0 /\ since d u0 b u c /\ right_counts (view_of u) c.
Proof. exact counts_since. Qed.
Print Assumptions C66_every_history_has_one.
(** The host type is that of the host that was stored last by one of
    set_encoded_url, set_host and set_encoded_host, or by the constructor. *)
Theorem C67_host_type_describes_the_last_host :
  forall (d : bool) (u0 : url) (b : uri), fresh u0 -> rep (part_texts b) u0 ->
    forall (u : url) (h : str), host_since d u0 (the_host b) u h -> host_class h (get_host_type (view_of u)).
Proof. exact host_type_describes. Qed.
Print Assumptions C67_host_type_describes_the_last_host.
Theorem C67_every_history_has_one :
  forall (d : bool) (u0 u : url), fresh u0 -> history any d u0 u ->
    exists b h, rep (part_texts b) u0 /\ host_since d u0 (the_host b) u h /\ host_class h (get_host_type (view_of u)).
Proof. exact host_type_since. Qed.
Print Assumptions C67_every_history_has_one.
Definition last_host : url := snd (run (plenty true) (Set_host (L "1.2.3.4")) url0).
Definition last_host_uri : uri := with_host (L "1.2.3.4") empty_uri.
Example C67_example :
  fresh url0 /\ rep (part_texts empty_uri) url0 /\ host_since true url0 (the_host empty_uri) last_host (L "1.2.3.4") /\
  (let u := snd (run (plenty true) (Set_encoded_authority (L "[::1]")) last_host) in
   host_since true url0 (the_host empty_uri) u (L "1.2.3.4") /\ get_host_type (view_of u) = host_ipv4 /\ encoded_host (view_of u) = Val (L "[::1]")).
Proof.
  assert (S1 : host_since true url0 (the_host empty_uri) last_host (L "1.2.3.4")).
  { apply (host_since_set true url0 (the_host empty_uri) (plenty true) (Set_host (L "1.2.3.4")) url0 (the_host empty_uri) tt last_host last_host_uri);
      [constructor|exact (plenty_ok true)|reflexivity|exact I|reflexivity|vm_compute; reflexivity|].
    replace last_host with (st (map Some (concat (part_texts last_host_uri))) [None] 9 9 1 (bounds 0 (part_texts last_host_uri)) 0 0 host_ipv4) by (vm_compute; reflexivity).
    exact (rep_buf (part_texts last_host_uri) [None] 9 9 1 0 0 host_ipv4 eq_refl ltac:(vm_compute; repeat constructor)). }
  split; [left; reflexivity|]. split; [exact (rep_null (part_texts empty_uri) 0 0 host_none eq_refl eq_refl)|]. split; [exact S1|].
  cbv zeta. split; [|split; vm_compute; reflexivity].
  eapply (host_since_other true url0 (the_host empty_uri) (plenty true) (Set_encoded_authority (L "[::1]")) last_host);
    [exact S1|exact (plenty_ok true)|reflexivity|exact I|intros a _ H; exact H|left; reflexivity|apply surjective_pairing].
Qed.
Example C66_example :
  seen (url_after (plenty true) (L "//h") [Set_encoded_path (L "/a/b")]) (fun v => Val (segments_size v)) = Val 0 /\
  seen (url_after (plenty true) (L "//h") [Set_encoded_path (L "/a/b"); Set_encoded_url (L "/x/y?z")]) (fun v => Val (segments_size v, params_size v)) = Val (2, 1) /\
  seen (url_after (plenty true) (L "//h") [Set_encoded_authority (L "1.2.3.4")]) (fun v => Val (get_host_type v)) = Val host_name /\
  since true url0 empty_uri (snd (run (plenty true) (Set_scheme (L "a")) url0)) empty_uri.
Proof.
  split; [vm_compute; reflexivity|]. split; [vm_compute; reflexivity|]. split; [vm_compute; reflexivity|].
  eapply (since_other true url0 empty_uri (plenty true) (Set_scheme (L "a")));
    [constructor|exact (plenty_ok true)|reflexivity|exact I|intros a _ H; exact H|left; reflexivity|apply surjective_pairing].
Qed.

(** ** C68: exactly what set_encoded_origin does with other text *)

(** Whatever is accepted starts with an origin [s1], which is stored, and the
    rest [s2] is put in front of the path. *)
Theorem C68_accepted_text_starts_with_an_origin :
  forall (E : env) (a : uri) (u : url) (s : str) (x : unit) (u' : url),
    env_ok E -> rep (part_texts a) u -> s <> [] -> run E (Set_encoded_origin s) u = (Val x, u') ->
    exists s1 s2 sc oa, s = s1 ++ s2 /\ origin_of s1 sc oa /\ (s2 = [] <-> exists sc' oa', origin_of s sc' oa') /\
      shows (dbg E) (view_of u') (mk_uri (Some sc) oa (s2 ++ uri_path a) (uri_query a) (uri_fragment a)).
Proof. exact origin_accepted. Qed.
Print Assumptions C68_accepted_text_starts_with_an_origin.
(** Every URL with a scheme is accepted; its path, query and fragment end up in
    the path. *)
Theorem C68_whole_url_as_origin :
  forall (E : env) (a : uri) (u : url) (b : uri) (sc : str),
    env_ok E -> rep (part_texts a) u -> wf accepted b -> uri_scheme b = Some sc ->
    (exists u', run E (Set_encoded_origin (recompose b)) u = (Val tt, u') /\
       shows (dbg E) (view_of u') (mk_uri (Some sc) (uri_authority b)
         (uri_path b ++ opt (cons "?"%char) (uri_query b) ++ opt (cons "#"%char) (uri_fragment b) ++ uri_path a)
         (uri_query a) (uri_fragment a))) \/
    (exists e, no_room e /\ run E (Set_encoded_origin (recompose b)) u = (Exn e, u)).
Proof. exact whole_url_as_origin. Qed.
Print Assumptions C68_whole_url_as_origin.
Example C68_example :
  seen (url_after (plenty true) (L "//h/p?q") [Set_encoded_origin (L "a://b/c?d#e")]) encoded_url = Val (L "a://b/c?d#e/p?q") /\
  seen (url_after (plenty true) (L "//h/p?q") [Set_encoded_origin (L "a://b/c?d#e")]) encoded_path = Val (L "/c?d#e/p").
Proof. vm_compute. auto. Qed.

(** ** C69: exactly when removal works *)

Theorem C69_removal_exactly :
  forall (E : env) (o : op) (a : uri) (u : url), env_ok E -> rep (part_texts a) u -> removes o = true ->
    ((exists u', run E o u = (Val tt, u') /\ removed (dbg E) o (view_of u')) <-> ~ breaks (dbg E) o a) /\
    (breaks (dbg E) o a -> run E o u = (Abort, u)).
Proof. exact removal_exact. Qed.
Print Assumptions C69_removal_exactly.
(** Setting and then removing the user or the password is the same as removing
    it, except that "//" may be left. *)
Theorem C69_set_then_remove :
  forall (E1 E2 E3 : env) (o1 o2 : op) (d : bool) (a : uri) (u : url) (x1 : unit) (u1 : url) (x2 : unit) (u2 : url) (x3 : unit) (w : url),
    sets o1 = sets o2 -> sets o2 = Some c_user \/ sets o2 = Some c_password -> removes o2 = true ->
    env_ok E1 -> env_ok E2 -> env_ok E3 -> arg_ok o1 -> rep (part_texts a) u ->
    ~ misbehaves (dbg E1) o1 a -> (forall b, rep (part_texts b) u1 -> ~ misbehaves (dbg E2) o2 b) -> ~ misbehaves (dbg E3) o2 a ->
    run E1 o1 u = (Val x1, u1) -> run E2 o2 u1 = (Val x2, u2) -> run E3 o2 u = (Val x3, w) ->
    exists b c, shows d (view_of u2) b /\ shows d (view_of w) c /\ same_but_slashes b c.
Proof. exact last_writer_removes. Qed.
Print Assumptions C69_set_then_remove.
Example C69_example :
  removes (Set_user []) = true /\ ~ breaks true (Set_user []) empty_uri /\ breaks true (Set_user []) (with_host (L "h") empty_uri) /\
  seen (url_after (plenty true) (L "/p") [Set_user (L "x"); Set_user []]) encoded_url = Val (L "///p") /\
  seen (url_after (plenty true) (L "/p") [Set_user []]) encoded_url = Val (L "/p").
Proof.
  split; [reflexivity|]. split; [intros (_ & H & _); apply H; reflexivity|]. split; [split; [reflexivity|split; [discriminate|reflexivity]]|].
  split; vm_compute; reflexivity.
Qed.

(** ** C70: exactly when there is room *)

(** If the allocator grants every request up to max_size(): a valid call
    succeeds exactly if the text fits the capacity, or it is shorter than
    max_size() and the capacity is less than half of it. *)
Theorem C70_growth_exactly :
  forall (E : env) (o : op) (a a' : uri) (u : url),
    env_ok E -> generous E -> need o a a' <= size_max E -> arg_ok o -> rep (part_texts a) u ->
    ~ misbehaves (dbg E) o a -> step o a a' ->
    ((exists u', run E o u = (Val tt, u')) <->
     (need o a a' <= st_cap (u_st u) \/ (2 * st_cap (u_st u) < max_size E /\ need o a a' < max_size E))).
Proof. exact growth_exact. Qed.
Print Assumptions C70_growth_exactly.
Definition small : env := mk_env true 100 5 (fun _ n => n <=? 5).
Example C70_example :
  generous small /\ env_ok small /\
  (exists u, make_url small (L "//h") = Val u /\ st_cap (u_st u) = 3 /\ fst (run small (Set_encoded_path (L "/")) u) = Exn bad_alloc) /\
  (exists u, make_url small (L "//") = Val u /\ st_cap (u_st u) = 2 /\ fst (run small (Set_encoded_path (L "/a")) u) = Val tt).
Proof.
  split; [intros k n; apply Nat.leb_le|]. split; [intros k n H; apply Nat.leb_le, H|].
  split; eexists; (split; [vm_compute; reflexivity|]); vm_compute; auto.
Qed.

(** ** C71: exactly which strings are schemes *)

(** [negative_inside s]: [s] starts like the name of a special scheme of the same
    length, up to a character outside ASCII (other than 255, which is EOF). *)
Theorem C71_scheme_exactly :
  forall s : str,
    (string_to_scheme s = UB <-> negative_inside s) /\
    (string_to_scheme s = Val sch_unknown <-> ~ special s /\ ~ negative_inside s).
Proof. exact scheme_exact. Qed.
Print Assumptions C71_scheme_exactly.
Example C71_example :
  string_to_scheme (L "htt" ++ ["233"%char]) = UB /\ string_to_scheme (L "hxt" ++ ["233"%char]) = Val sch_unknown /\
  negative_inside (L "htt" ++ ["233"%char]).
Proof.
  split; [vm_compute; reflexivity|]. split; [vm_compute; reflexivity|].
  exists sch_http, (L "http"), 3, "233"%char. split; [reflexivity|]. split; [reflexivity|]. split; [reflexivity|]. split; [reflexivity|].
  intros [H|H]; [|discriminate H]. apply Nat.ltb_lt in H. vm_compute in H. discriminate.
Qed.

(** ** C72: exactly what set_encoded_url("") does *)

Theorem C72_empty_url_exactly :
  forall (E : env) (a : uri) (u : url), env_ok E -> rep (part_texts a) u ->
    exists u', run E (Set_encoded_url []) u = (Val tt, u') /\ (forall d, shows d (view_of u') empty_uri) /\
      segments_size (view_of u') = segments_size (view_of u) /\ params_size (view_of u') = params_size (view_of u) /\
      get_host_type (view_of u') = get_host_type (view_of u).
Proof. exact empty_url_exact. Qed.
Print Assumptions C72_empty_url_exactly.
Example C72_example :
  seen (url_after (plenty true) (L "//1.2.3.4/a/b?c") [Set_encoded_url []]) encoded_url = Val [] /\
  seen (url_after (plenty true) (L "//1.2.3.4/a/b?c") [Set_encoded_url []]) (fun v => Val (segments_size v, get_host_type v)) = Val (2, host_ipv4).
Proof. vm_compute. auto. Qed.

(** ** C76: exactly which arguments are rejected *)

Theorem C76_rejects_exactly :
  forall (E : env) (o : op) (a : uri) (u : url), env_ok E -> arg_ok o -> rep (part_texts a) u -> (forall s, o <> Set_encoded_origin s) ->
    (fst (run E o u) = Exn invalid_part <-> ~ valid_arg o a).
Proof. exact rejects_exactly. Qed.
Print Assumptions C76_rejects_exactly.
Example C76_example :
  fst (run (plenty true) (Set_encoded_query (L "a#")) url0) = Exn invalid_part /\ ~ valid_arg (Set_port (L "8x")) empty_uri /\
  valid_arg (Set_port (L "80")) empty_uri.
Proof. split; [vm_compute; reflexivity|]. split; [discriminate|reflexivity]. Qed.
