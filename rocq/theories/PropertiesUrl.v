(** * PropertiesUrl: the modifiers of a url

    [run E o u] models the call of modifier [o] on [u]; [E] gives the build mode
    ([dbg E]: assertions enabled), the size limit, and which allocations
    succeed.  [rep (part_texts a) u] says that [u] holds a URL with components
    [a] (SpecStore.v); C19 below shows that this covers everything that can be
    reached by calls that do not damage the URL.  [misbehaves]: SpecUrl.v,
    [history], [reachable], [breaks], [agree], [valid_arg]: SpecHistory.v,
    [reads_back], [removed], [same_url], [same_observers]: SpecSetters.v. *)

From Verif Require Import Base ModelChar ModelParts ModelView ModelUrl SpecChar SpecGrammar SpecLink SpecView SpecStore SpecUrl
  ProofsUrl SpecHistory SpecSetters ProofsAtomic ProofsParseProps ProofsHistory ProofsMisbehave ProofsSetters.

Definition start : str := L "http://u:p@h:80/a/b?k=v#f".
(** The url made from it, and its components: an instance for the hypotheses
    below. *)
Definition start_uri : uri :=
  mk_uri (Some (L "http")) (Some (mk_authority (Some (L "u:p")) (L "h") (Some (L "80")))) (L "/a/b") (Some (L "k=v")) (Some (L "f")).
Definition start_url : url := match make_url (plenty true) start with Val u => u | _ => url0 end.
Example start_covered :
  recompose start_uri = start /\ rep (part_texts start_uri) start_url /\ fresh start_url /\ reachable true start_url /\ terminated start_url.
Proof.
  assert (F : fresh start_url) by (right; exists (plenty true), start; split; [exact (plenty_ok true)|vm_compute; reflexivity]).
  split; [reflexivity|]. split; [|split; [exact F|]].
  - replace start_url with (st (map Some (concat (part_texts start_uri))) [Some NUL] 25 25 1 (bounds 0 (part_texts start_uri)) 2 1 host_name) by (vm_compute; reflexivity).
    exact (rep_buf (part_texts start_uri) [Some NUL] 25 25 1 2 1 host_name eq_refl ltac:(vm_compute; repeat constructor)).
  - split; [exists start_url; split; [exact F|constructor]|]. eexists. split; vm_compute; reflexivity.
Qed.

(** ** C09: url and url_view *)

Theorem C09_url_and_view_agree :
  forall (E : env) (s : str), env_ok E ->
    (exists v, make_url_view (dbg E) s = Val v /\
      ((exists u, make_url E s = Val u /\ same_observers (dbg E) v (view_of u)) \/ make_url E s = Exn bad_alloc)) \/
    (make_url_view (dbg E) s = Exn invalid_part /\ make_url E s = Exn invalid_part).
Proof. exact url_and_view. Qed.
Print Assumptions C09_url_and_view_agree.
Example C09_example :
  (exists v u, make_url_view true start = Val v /\ make_url (plenty true) start = Val u /\
     encoded_password_view true v = Val (L "p") /\ encoded_password_base true (view_of u) = Val (L "p")) /\
  make_url (plenty true) (L "//h:x") = Exn invalid_part.
Proof. split; [|vm_compute; reflexivity]. do 2 eexists. vm_compute. auto. Qed.

(** ** C14: plain setters *)

(** Every string is accepted; afterwards the decoded getter returns it, unless
    memory runs out, in which case nothing changes.  The only other outcome is
    the assertion in set_user(""), see C42. *)
Theorem C14_plain_setters_round_trip :
  forall (E : env) (o : op) (a : uri) (u : url), env_ok E -> rep (part_texts a) u -> plain o = true ->
    (exists u', run E o u = (Val tt, u') /\ reads_back (dbg E) o (view_of u')) \/
    (exists e, no_room e /\ run E o u = (Exn e, u)) \/
    (o = Set_user [] /\ dbg E = true /\ has_authority (view_of u) = true /\
     has_userinfo_base true (view_of u) = Val false /\ run E o u = (Abort, u)).
Proof. exact plain_reads_back. Qed.
Print Assumptions C14_plain_setters_round_trip.
Example C14_hypotheses : env_ok (plenty true) /\ rep (part_texts start_uri) start_url /\ plain (Set_password (L "/?#")) = true.
Proof. split; [exact (plenty_ok true)|]. split; [apply start_covered|reflexivity]. Qed.
Example C14_example :
  seen (url_after (plenty true) start [Set_user (L "a:b@%"); Set_password (L "/?#"); Set_host (L "x y"); Set_query (L "1=2 3"); Set_fragment (L "#")]) encoded_url =
    Val (L "http://a%3Ab%40%25:%2F%3F%23@x%20y:80/a/b?1=2%203#%23") /\
  seen (url_after (plenty true) start [Set_user (L "a:b@%")]) (user true) = Val (L "a:b@%").
Proof. vm_compute. auto. Qed.

(** ** C15: encoded setters *)

(** Full statement: the same without the hypothesis on [misbehaves].  Missing:
    non-empty userinfos (C15_userinfo_exact), origins followed by other
    characters (C37), set_port_part(":") without authority (C43). *)
Theorem C15_encoded_setters_store_their_argument_partial :
  forall (E : env) (o : op) (a : uri) (u : url) (x : unit) (u' : url),
    env_ok E -> arg_ok o -> rep (part_texts a) u -> ~ misbehaves (dbg E) o a ->
    run E o u = (Val x, u') -> reads_back (dbg E) o (view_of u').
Proof. exact call_reads_back. Qed.
Print Assumptions C15_encoded_setters_store_their_argument_partial.
Example C15_hypotheses :
  exists u', env_ok (plenty true) /\ arg_ok (Set_port_part (L ":")) /\ rep (part_texts start_uri) start_url /\
    ~ misbehaves true (Set_port_part (L ":")) start_uri /\ run (plenty true) (Set_port_part (L ":")) start_url = (Val tt, u') /\
    encoded_url (view_of u') = Val (L "http://u:p@h:/a/b?k=v#f").
Proof.
  eexists. split; [exact (plenty_ok true)|]. split; [exact I|]. split; [apply start_covered|]. split; [intros (_ & H); discriminate H|].
  split; vm_compute; reflexivity.
Qed.
Example C15_example :
  seen (url_after (plenty true) start [Set_encoded_authority (L "a:b@[::1]:8")]) (encoded_authority true) = Val (L "a:b@[::1]:8") /\
  ~ misbehaves true (Set_encoded_authority (L "a:b@[::1]:8")) empty_uri.
Proof. split; [vm_compute; reflexivity|intros []]. Qed.

(** What set_encoded_userinfo(s) does: the URL and the whole userinfo are
    right, the user is not, unless it is empty, and then the password is not. *)
Theorem C15_userinfo_exact :
  forall (E : env) (a : uri) (u : url) (s : str) (x : unit) (u' : url) (d : bool),
    env_ok E -> rep (part_texts a) u -> s <> [] -> run E (Set_encoded_userinfo s) u = (Val x, u') ->
    encoded_url (view_of u') = Val (recompose (with_userinfo (Some s) a)) /\
    encoded_userinfo_base d (view_of u') = Val s /\
    (length (user_of s) = 1 -> encoded_user d (view_of u') = if d then Abort else UB) /\
    (2 <= length (user_of s) -> encoded_user d (view_of u') = Val (firstn (length (user_of s) - 2) s)) /\
    (user_of s = [] -> encoded_password_base d (view_of u') = Val (L "//" ++ s)).
Proof. exact userinfo_call. Qed.
Print Assumptions C15_userinfo_exact.
Example C15_userinfo_example :
  seen (url_after (plenty false) (L "//h") [Set_encoded_userinfo (L "abc:d")]) encoded_url = Val (L "//abc:d@h") /\
  seen (url_after (plenty false) (L "//h") [Set_encoded_userinfo (L "abc:d")]) (encoded_user false) = Val (L "a").
Proof. vm_compute. auto. Qed.
Theorem C15_userinfo_refuted :
  exists (E : env) (s : str) (u u' : url), env_ok E /\ make_url E (L "//h") = Val u /\
    run E (Set_encoded_userinfo s) u = (Val tt, u') /\ encoded_user (dbg E) (view_of u') <> Val (user_of s).
Proof.
  exists (plenty false), (L "abc:d"). do 2 eexists. split; [intros k n H; apply Nat.leb_le; exact H|].
  split; [vm_compute; reflexivity|]. split; [vm_compute; reflexivity|]. vm_compute. discriminate.
Qed.
Print Assumptions C15_userinfo_refuted.

(** ** C16: other components *)

(** [clean_origin o]: [o] is not a set_encoded_origin whose argument continues
    after the origin (see C37_trailing_characters_refuted). *)
Theorem C16_setters_leave_the_rest_alone :
  forall (E : env) (o : op) (a : uri) (u : url) (x : unit) (u' : url),
    env_ok E -> arg_ok o -> rep (part_texts a) u -> clean_origin o ->
    run E o u = (Val x, u') -> agree (dbg E) o (view_of u) (view_of u').
Proof. exact call_agrees_all. Qed.
Print Assumptions C16_setters_leave_the_rest_alone.
Example C16_hypotheses :
  exists u', rep (part_texts start_uri) start_url /\ env_ok (plenty true) /\ arg_ok (Set_port_n 443) /\ clean_origin (Set_port_n 443) /\
    run (plenty true) (Set_port_n 443) start_url = (Val tt, u') /\ encoded_url (view_of u') = Val (L "http://u:p@h:443/a/b?k=v#f").
Proof.
  eexists. split; [apply start_covered|]. split; [exact (plenty_ok true)|]. split; [vm_compute; reflexivity|].
  split; [intros a a' (x & y & sc & oa & _ & E & _); discriminate E|]. split; vm_compute; reflexivity.
Qed.
Example C16_example :
  seen (url_after (plenty true) start [Set_host (L "example.com")]) encoded_url = Val (L "http://u:p@example.com:80/a/b?k=v#f") /\
  clean_origin (Set_host (L "example.com")).
Proof. split; [vm_compute; reflexivity|]. intros a a' (x & y & sc & oa & _ & E & _). discriminate E. Qed.

(** ** C17: strong exception guarantee *)

(** For every url, even a damaged one, and every pattern of failures. *)
Theorem C17_throwing_modifiers_change_nothing :
  forall (E : env) (o : op) (u : url) (e : exn) (u' : url), run E o u = (Exn e, u') -> u' = u.
Proof. exact run_atomic. Qed.
Print Assumptions C17_throwing_modifiers_change_nothing.
(** In particular the second of two internal steps never fails after the first
    has changed something. *)
Example C17_example :
  exists u, make_url (plenty true) (L "//h") = Val u /\
    run (mk_env true 4000 3000 (fun _ _ => false)) (Set_user (L "a long user name")) u = (Exn bad_alloc, u) /\
    run (plenty true) (Set_port (L "8x")) u = (Exn invalid_part, u).
Proof. eexists. split; [vm_compute; reflexivity|]. vm_compute. auto. Qed.

(** ** C18: rejected arguments *)

(** A rejected argument is invalid; an invalid argument is rejected, except by
    set_encoded_origin. *)
Theorem C18_rejects_exactly_the_invalid_partial :
  forall (E : env) (o : op) (a : uri) (u : url), env_ok E -> arg_ok o -> rep (part_texts a) u ->
    (fst (run E o u) = Exn invalid_part -> ~ valid_arg o a) /\
    (clean_origin o -> ~ valid_arg o a -> fst (run E o u) = Exn invalid_part).
Proof. exact rejects_iff. Qed.
Print Assumptions C18_rejects_exactly_the_invalid_partial.
Example C18_hypotheses :
  env_ok (plenty true) /\ arg_ok (Set_port (L "8x")) /\ rep (part_texts start_uri) start_url /\ clean_origin (Set_port (L "8x")) /\
  ~ valid_arg (Set_port (L "8x")) start_uri /\ valid_arg (Set_port (L "08")) start_uri.
Proof.
  split; [exact (plenty_ok true)|]. split; [exact I|]. split; [apply start_covered|].
  split; [intros a a' (x & y & sc & oa & _ & E & _); discriminate E|]. split; [intros H; discriminate H|reflexivity].
Qed.
Example C18_example :
  exists u, make_url (plenty true) (L "//h") = Val u /\
    fst (run (plenty true) (Set_encoded_path (L "a")) u) = Exn invalid_part /\
    fst (run (plenty true) (Set_encoded_path (L "/a")) u) = Val tt.
Proof. eexists. split; [vm_compute; reflexivity|]. vm_compute. auto. Qed.
Theorem C18_origin_refuted :
  exists (E : env) (s : str) (u u' : url), env_ok E /\ make_url E (L "/p") = Val u /\
    run E (Set_encoded_origin s) u = (Val tt, u') /\ forall a, ~ valid_arg (Set_encoded_origin s) a.
Proof.
  exists (plenty true), (L "http://h/x?y"). do 2 eexists. split; [exact (plenty_ok true)|].
  split; [vm_compute; reflexivity|]. split; [vm_compute; reflexivity|].
  intros a [H|(sc & oa & H)]; [discriminate|]. revert H. eapply not_origin; [vm_compute; reflexivity|]. vm_compute. discriminate.
Qed.
Print Assumptions C18_origin_refuted.

(** ** C19: histories *)

(** Whatever is called, in whatever order, with whatever arguments and
    allocation failures: memory is sound, and all accessors return what they
    should.  Excluded are the calls in [breaks]; the refutations show why.  *)
Theorem C19_histories_are_sound_partial :
  forall (d : bool) (u : url), reachable d u ->
    sound_memory u /\ exists a, rep (part_texts a) u /\ shows d (view_of u) a /\ shows_decoded d (view_of u) a.
Proof. exact reachable_sound. Qed.
Print Assumptions C19_histories_are_sound_partial.
(** The next call returns or throws. *)
Theorem C19_next_call_partial :
  forall (d : bool) (u : url) (E : env) (o : op), reachable d u -> env_ok E -> dbg E = d -> arg_ok o ->
    (forall a, rep (part_texts a) u -> ~ breaks d o a) ->
    exists r u', run E o u = (r, u') /\ (r = Val tt \/ exists e, r = Exn e) /\ reachable d u'.
Proof. exact reachable_next. Qed.
Print Assumptions C19_next_call_partial.
Example C19_hypotheses :
  reachable true start_url /\ env_ok (plenty true) /\ arg_ok (Set_user []) /\
  forall a, rep (part_texts a) start_url -> ~ breaks true (Set_user []) a.
Proof.
  split; [apply start_covered|]. split; [exact (plenty_ok true)|]. split; [exact I|]. intros a R.
  rewrite (Rep_unique _ _ _ R (proj1 (proj2 start_covered))). intros (_ & _ & H). discriminate H.
Qed.
Example C19_example :
  exists u u1 u2, fresh u /\ run (plenty true) (Set_user (L "x")) u = (Val tt, u1) /\
    run (mk_env true 4000 3000 (fun _ _ => false)) (Set_query (L "a long query that needs memory")) u1 = (Exn bad_alloc, u2) /\
    reachable true u2.
Proof.
  destruct (make_url (plenty true) (L "//h")) as [u| | | |] eqn:Eu; try (vm_compute in Eu; discriminate Eu).
  destruct (run (plenty true) (Set_user (L "x")) u) as [r1 u1] eqn:E1.
  destruct (run (mk_env true 4000 3000 (fun _ _ => false)) (Set_query (L "a long query that needs memory")) u1) as [r2 u2] eqn:E2.
  assert (F : fresh u) by (right; exists (plenty true), (L "//h"); split; [exact (plenty_ok true)|exact Eu]).
  exists u, u1, u2. split; [exact F|].
  assert (R1 : r1 = Val tt) by (vm_compute in Eu; injection Eu as <-; vm_compute in E1; injection E1 as <- _; reflexivity).
  assert (R2 : r2 = Exn bad_alloc).
  { vm_compute in Eu. injection Eu as <-. vm_compute in E1. injection E1 as _ <-. vm_compute in E2. injection E2 as <- _. reflexivity. }
  split; [rewrite <- R1; exact E1|]. split; [rewrite <- R2; exact E2|].
  exists u. split; [exact F|].
  apply (history_call any true u (mk_env true 4000 3000 (fun _ _ => false)) (Set_query (L "a long query that needs memory")) u1 r2);
    [|exact I|intros k n H; discriminate H|reflexivity|exact I|intros a _ H; exact H|exact E2].
  apply (history_call any true u (plenty true) (Set_user (L "x")) u r1);
    [constructor|exact I|exact (plenty_ok true)|reflexivity|exact I|intros a _ H; exact H|exact E1].
Qed.
(** After set_encoded_userinfo("a:b") the accessor of the user fires an
    assertion or, without assertions, reads outside its part. *)
Theorem C19_userinfo_refuted :
  forall d : bool, exists (u u' : url), fresh u /\ run (plenty d) (Set_encoded_userinfo (L "a:b")) u = (Val tt, u') /\
    encoded_user d (view_of u') = if d then Abort else UB.
Proof.
  intros d. destruct (make_url (plenty d) (L "//h")) as [u| | | |] eqn:Eu; try (destruct d; vm_compute in Eu; discriminate Eu).
  exists u. assert (F : fresh u) by (right; exists (plenty d), (L "//h"); split; [exact (plenty_ok d)|exact Eu]).
  destruct d; vm_compute in Eu; injection Eu as <-; eexists; (split; [exact F|]); vm_compute; auto.
Qed.
Print Assumptions C19_userinfo_refuted.
(** After set_port_part(":") on a URL without authority, the accessor of the
    authority does. *)
Theorem C19_port_part_refuted :
  forall d : bool, exists (u' : url), run (plenty d) (Set_port_part (L ":")) url0 = (Val tt, u') /\
    encoded_authority d (view_of u') = if d then Abort else UB.
Proof. intros []; eexists; (split; [vm_compute; reflexivity|]); vm_compute; reflexivity. Qed.
Print Assumptions C19_port_part_refuted.
(** set_user("") on a URL with authority but without userinfo fires an
    assertion. *)
Theorem C19_set_user_refuted :
  exists u : url, fresh u /\ fst (run (plenty true) (Set_user []) u) = Abort.
Proof.
  destruct (make_url (plenty true) (L "//h")) as [u| | | |] eqn:Eu; try (vm_compute in Eu; discriminate Eu).
  exists u. split; [right; exists (plenty true), (L "//h"); split; [exact (plenty_ok true)|exact Eu]|].
  vm_compute in Eu. injection Eu as <-. vm_compute. reflexivity.
Qed.
Print Assumptions C19_set_user_refuted.

(** ** C20: null termination *)

Theorem C20_terminated_after_construction_partial :
  forall (E : env) (s : str) (u0 : url) (d : bool) (u : url),
    env_ok E -> s <> [] -> make_url E s = Val u0 -> history any d u0 u -> terminated u.
Proof. exact terminated_reachable. Qed.
Print Assumptions C20_terminated_after_construction_partial.
(** More generally it is never lost. *)
Theorem C20_termination_is_kept :
  forall (d : bool) (u0 u : url), (exists a, rep (part_texts a) u0) -> terminated u0 -> history any d u0 u -> terminated u.
Proof. exact terminated_history. Qed.
Print Assumptions C20_termination_is_kept.
Example C20_hypotheses : (exists a, rep (part_texts a) start_url) /\ terminated start_url /\ history any true start_url start_url.
Proof. split; [eexists; apply start_covered|]. split; [apply start_covered|constructor]. Qed.
Example C20_example :
  exists u u', make_url (plenty true) start = Val u /\ run (plenty true) (Set_encoded_query []) u = (Val tt, u') /\ terminated u'.
Proof. do 2 eexists. split; [vm_compute; reflexivity|]. split; [vm_compute; reflexivity|]. eexists. split; [vm_compute; reflexivity|]. vm_compute; reflexivity. Qed.
(** A default-constructed url is not terminated after its first growth. *)
Theorem C20_default_constructed_refuted :
  exists u' : url, run (plenty true) (Set_scheme (L "http")) url0 = (Val tt, u') /\ ~ terminated u'.
Proof.
  eexists. split; [vm_compute; reflexivity|]. intros (b & Hb & Hn). vm_compute in Hb. injection Hb as <-. vm_compute in Hn. discriminate Hn.
Qed.
Print Assumptions C20_default_constructed_refuted.

(** ** C21: serialisation *)

(** The text of a reachable URL parses to the same components exactly if the
    path can follow the rest. *)
Theorem C21_reparses_exactly_if_path_fits_partial :
  forall (d : bool) (u : url), reachable d u ->
    exists a, shows d (view_of u) a /\
      ((exists v, make_url_view d (recompose a) = Val v /\ shows d v a) <-> wf_path accepted a).
Proof. exact reachable_reparse. Qed.
Print Assumptions C21_reparses_exactly_if_path_fits_partial.
Example C21_example : wf_path accepted (mk_uri (Some (L "x")) None (L "a") (Some (L "q")) None).
Proof. right. right. split; [apply pt_char; [reflexivity|apply pt_nil]|]. split; [discriminate|intros r E; discriminate E]. Qed.
(** url("a"), set_host("x"): the text is "//xa", another host and no path. *)
Theorem C21_reparse_refuted :
  exists u u' v, make_url (plenty true) (L "a") = Val u /\ run (plenty true) (Set_host (L "x")) u = (Val tt, u') /\
    encoded_url (view_of u') = Val (L "//xa") /\ encoded_host (view_of u') = Val (L "x") /\
    make_url_view true (L "//xa") = Val v /\ encoded_host v = Val (L "xa").
Proof. do 3 eexists. split; [vm_compute; reflexivity|]. vm_compute. repeat split; reflexivity. Qed.
Print Assumptions C21_reparse_refuted.

(** ** C29, C30: counters and host type *)

(** [keeps_counts o]: [o] replaces the whole URL, or changes neither path nor
    query. *)
Theorem C29_counters_right_partial :
  forall (d : bool) (u0 u : url), fresh u0 -> history keeps_counts d u0 u ->
    exists a, rep (part_texts a) u /\ right_counts (view_of u) a.
Proof. exact counts_history. Qed.
Print Assumptions C29_counters_right_partial.
Example C29_hypotheses :
  exists u, fresh start_url /\ history keeps_counts true start_url u /\ encoded_url (view_of u) = Val (L "http://u:p@x:80/a/b?k=v#f").
Proof.
  destruct (run (plenty true) (Set_host (L "x")) start_url) as [r u] eqn:E. exists u. split; [apply start_covered|]. split.
  - eapply (history_call _ _ _ (plenty true) (Set_host (L "x"))); [constructor| |exact (plenty_ok true)|reflexivity|exact I|intros a _ H; exact H|exact E].
    right. split; [reflexivity|]. split; [reflexivity|]. intros a a' (x & y & sc & oa & _ & H & _). discriminate H.
  - vm_compute in E. injection E as <- <-. vm_compute. reflexivity.
Qed.
(** Otherwise they are never updated. *)
Theorem C29_counters_never_updated :
  forall (P : op -> Prop) (d : bool) (u0 u : url), (exists a, rep (part_texts a) u0) -> (forall o, P o -> replaces o = false) -> history P d u0 u ->
    nseg (u_pt u) = nseg (u_pt u0) /\ nparam (u_pt u) = nparam (u_pt u0).
Proof. exact counters_stay. Qed.
Print Assumptions C29_counters_never_updated.
Example C29_stay_hypotheses :
  exists u, (exists a, rep (part_texts a) start_url) /\ history (fun o => replaces o = false) true start_url u /\
    encoded_url (view_of u) = Val (L "http://u:p@h:80/x/y/z?k=v#f") /\ nseg (u_pt u) = 2.
Proof.
  destruct (run (plenty true) (Set_encoded_path (L "/x/y/z")) start_url) as [r u] eqn:E. exists u. split; [eexists; apply start_covered|]. split.
  - eapply (history_call _ _ _ (plenty true) (Set_encoded_path (L "/x/y/z"))); [constructor|reflexivity|exact (plenty_ok true)|reflexivity|exact I|intros a _ H; exact H|exact E].
  - vm_compute in E. injection E as <- <-. split; vm_compute; reflexivity.
Qed.
Example C29_example : keeps_counts (Set_encoded_url start) /\ keeps_counts (Set_host (L "h")) /\ ~ keeps_counts (Set_encoded_path (L "/a")).
Proof.
  split; [left; reflexivity|]. split.
  - right. split; [reflexivity|]. split; [reflexivity|]. intros a a' (x & y & sc & oa & _ & E & _). discriminate E.
  - intros [H|(H & _)]; discriminate H.
Qed.
Theorem C29_counters_refuted :
  exists u u' u'', make_url (plenty true) (L "//h") = Val u /\
    run (plenty true) (Set_encoded_path (L "/a/b")) u = (Val tt, u') /\ segments_size (view_of u') = 0 /\
    run (plenty true) (Set_query (L "a&b")) u' = (Val tt, u'') /\ params_size (view_of u'') = 0.
Proof. do 3 eexists. split; [vm_compute; reflexivity|]. split; [vm_compute; reflexivity|]. split; [reflexivity|]. split; [vm_compute; reflexivity|]. vm_compute; reflexivity. Qed.
Print Assumptions C29_counters_refuted.

(** [keeps_host_type o]: [o] does not change the host, or stores a non-empty
    host with set_host, set_encoded_host or set_encoded_url. *)
Theorem C30_host_type_right_partial :
  forall (d : bool) (u0 u : url), fresh u0 -> history keeps_host_type d u0 u ->
    exists a, rep (part_texts a) u /\ host_class (the_host a) (get_host_type (view_of u)).
Proof. exact host_type_history. Qed.
Print Assumptions C30_host_type_right_partial.
Example C30_hypotheses :
  exists u, fresh start_url /\ history keeps_host_type true start_url u /\ get_host_type (view_of u) = host_ipv4.
Proof.
  destruct (run (plenty true) (Set_host (L "1.2.3.4")) start_url) as [r u] eqn:E. exists u. split; [apply start_covered|]. split.
  - eapply (history_call _ _ _ (plenty true) (Set_host (L "1.2.3.4"))); [constructor|left; reflexivity|exact (plenty_ok true)|reflexivity|exact I|intros a _ H; exact H|exact E].
  - vm_compute in E. injection E as <- <-. vm_compute. reflexivity.
Qed.
Example C30_example : keeps_host_type (Set_host (L "1.2.3.4")) /\ keeps_host_type (Set_port (L "1")) /\ ~ keeps_host_type (Set_encoded_authority (L "h")).
Proof. split; [left; reflexivity|]. split; [right; reflexivity|]. intros [H|H]; discriminate H. Qed.
Theorem C30_host_type_refuted :
  exists u u' w, make_url (plenty true) (L "//h") = Val u /\
    run (plenty true) (Set_encoded_authority (L "1.2.3.4")) u = (Val tt, u') /\ get_host_type (view_of u') = host_name /\
    run (plenty true) (Set_host []) u = (Val tt, w) /\ encoded_host (view_of w) = Val [] /\ get_host_type (view_of w) = host_name.
Proof. do 3 eexists. split; [vm_compute; reflexivity|]. vm_compute. repeat split; reflexivity. Qed.
Print Assumptions C30_host_type_refuted.

(** ** C33: normalisation *)

Theorem C33_normalize_lower_cases_the_scheme :
  forall (E : env) (a : uri) (u : url), env_ok E -> rep (part_texts a) u ->
    exists u', run E Normalize u = (Val tt, u') /\
      rep (part_texts (with_scheme (option_map (map lower) (uri_scheme a)) a)) u' /\
      nseg (u_pt u') = nseg (u_pt u) /\ nparam (u_pt u') = nparam (u_pt u) /\ host (u_pt u') = host (u_pt u).
Proof. exact normalize_succeeds. Qed.
Print Assumptions C33_normalize_lower_cases_the_scheme.
Theorem C33_normalize_is_idempotent :
  forall (E1 E2 : env) (d : bool) (a : uri) (u : url) (x1 : unit) (u1 : url) (x2 : unit) (u2 : url),
    env_ok E1 -> env_ok E2 -> rep (part_texts a) u ->
    run E1 Normalize u = (Val x1, u1) -> run E2 Normalize u1 = (Val x2, u2) -> same_url d (view_of u1) (view_of u2).
Proof. exact normalize_twice. Qed.
Print Assumptions C33_normalize_is_idempotent.
Example C33_hypotheses : env_ok (plenty true) /\ rep (part_texts start_uri) start_url.
Proof. split; [exact (plenty_ok true)|apply start_covered]. Qed.
Example C33_example :
  seen (url_after (plenty true) (L "HtTp+X://U@H/P?Q") [Normalize]) encoded_url = Val (L "http+x://U@H/P?Q") /\
  lower "Z"%char = "z"%char /\ lower "["%char = "["%char /\ lower "@"%char = "@"%char.
Proof. vm_compute. auto. Qed.

(** ** C35: removal *)

(** Removing always succeeds, needs no memory, and removes the component with
    its delimiters.  Excluded is the assertion in set_user(""). *)
Theorem C35_removal_succeeds_partial :
  forall (E : env) (o : op) (a : uri) (u : url), env_ok E -> rep (part_texts a) u -> removes o = true -> ~ breaks (dbg E) o a ->
    exists u', run E o u = (Val tt, u') /\ removed (dbg E) o (view_of u') /\
      st_cap (u_st u') = st_cap (u_st u) /\ st_allocs (u_st u') = st_allocs (u_st u).
Proof. exact removal_succeeds. Qed.
Print Assumptions C35_removal_succeeds_partial.
Theorem C35_removal_twice_partial :
  forall (E1 E2 : env) (o : op) (d : bool) (a : uri) (u : url) (x1 : unit) (u1 : url) (x2 : unit) (u2 : url),
    removes o = true -> env_ok E1 -> env_ok E2 -> rep (part_texts a) u ->
    ~ breaks (dbg E1) o a -> (forall b, rep (part_texts b) u1 -> ~ breaks (dbg E2) o b) ->
    run E1 o u = (Val x1, u1) -> run E2 o u1 = (Val x2, u2) -> same_url d (view_of u1) (view_of u2).
Proof. exact removal_twice. Qed.
Print Assumptions C35_removal_twice_partial.
Example C35_hypotheses :
  exists u1 u2, rep (part_texts start_uri) start_url /\ removes (Set_password []) = true /\ ~ breaks true (Set_password []) start_uri /\
    (forall b, rep (part_texts b) u1 -> ~ breaks true (Set_password []) b) /\
    run (plenty true) (Set_password []) start_url = (Val tt, u1) /\ run (plenty true) (Set_password []) u1 = (Val tt, u2) /\
    encoded_url (view_of u1) = Val (L "http://u@h:80/a/b?k=v#f").
Proof.
  do 2 eexists. split; [apply start_covered|]. split; [reflexivity|]. split; [intros H; exact H|]. split; [intros b _ H; exact H|].
  split; [vm_compute; reflexivity|]. split; vm_compute; reflexivity.
Qed.
Example C35_example :
  seen (url_after (plenty true) start [Set_user []; Set_password []; Set_port []; Set_host []; Set_scheme []; Set_query []; Set_fragment []]) encoded_url = Val (L "/a/b") /\
  seen (url_after (plenty true) (L "//u:p@h") [Set_password []]) encoded_url = Val (L "//u@h").
Proof. vm_compute. auto. Qed.
(** In a build with assertions, removing the user twice aborts. *)
Theorem C35_removing_user_twice_refuted :
  exists u u', make_url (plenty true) (L "//u@h") = Val u /\ run (plenty true) (Set_user []) u = (Val tt, u') /\
    fst (run (plenty true) (Set_user []) u') = Abort.
Proof. do 2 eexists. split; [vm_compute; reflexivity|]. split; [vm_compute; reflexivity|]. vm_compute; reflexivity. Qed.
Print Assumptions C35_removing_user_twice_refuted.

(** ** C36: replacing the URL *)

Theorem C36_replacement_is_fresh_partial :
  forall (E E' : env) (a : uri) (u : url) (s : str) (x : unit) (u' w : url),
    env_ok E -> env_ok E' -> rep (part_texts a) u -> s <> [] ->
    run E (Set_encoded_url s) u = (Val x, u') -> make_url E' s = Val w ->
    u_pt u' = u_pt w /\ forall d, same_observers d (view_of u') (view_of w).
Proof. exact replace_is_fresh. Qed.
Print Assumptions C36_replacement_is_fresh_partial.
Example C36_hypotheses :
  exists u' w, rep (part_texts start_uri) start_url /\ env_ok (plenty true) /\ L "//[::1]/x" <> [] /\
    run (plenty true) (Set_encoded_url (L "//[::1]/x")) start_url = (Val tt, u') /\ make_url (plenty false) (L "//[::1]/x") = Val w.
Proof. do 2 eexists. split; [apply start_covered|]. split; [exact (plenty_ok true)|]. split; [discriminate|]. split; vm_compute; reflexivity. Qed.
Theorem C36_replacement_rejects_like_construction :
  forall (E E' : env) (a : uri) (u : url) (s : str), env_ok E -> env_ok E' -> rep (part_texts a) u ->
    (fst (run E (Set_encoded_url s) u) = Exn invalid_part <-> make_url E' s = Exn invalid_part).
Proof. exact replace_rejects_alike. Qed.
Print Assumptions C36_replacement_rejects_like_construction.
Example C36_example :
  seen (url_after (plenty true) start [Set_encoded_url (L "//[::1]/x")]) (fun v => Val (segments_size v, params_size v, get_host_type v)) = Val (1, 0, host_ipv6).
Proof. vm_compute. reflexivity. Qed.
(** Not so for the empty string: the counters and the host type survive. *)
Theorem C36_empty_refuted :
  exists u u' w, make_url (plenty true) (L "//1.2.3.4/a?b") = Val u /\ run (plenty true) (Set_encoded_url []) u = (Val tt, u') /\
    make_url (plenty true) [] = Val w /\ encoded_url (view_of u') = encoded_url (view_of w) /\
    segments_size (view_of u') = 1 /\ segments_size (view_of w) = 0 /\
    params_size (view_of u') = 1 /\ params_size (view_of w) = 0 /\
    get_host_type (view_of u') = host_ipv4 /\ get_host_type (view_of w) = host_none.
Proof. do 3 eexists. split; [vm_compute; reflexivity|]. vm_compute. repeat split; reflexivity. Qed.
Print Assumptions C36_empty_refuted.

(** ** C37: the origin *)

(** An origin is stored, and nothing else changes. *)
Theorem C37_origin_is_replaced_partial :
  forall (E : env) (a : uri) (u : url) (s sc : str) (oa : option authority), env_ok E -> rep (part_texts a) u -> origin_of s sc oa ->
    (exists u', run E (Set_encoded_origin s) u = (Val tt, u') /\ encoded_origin (view_of u') = Val s /\
       agree (dbg E) (Set_encoded_origin s) (view_of u) (view_of u')) \/
    (exists e, no_room e /\ run E (Set_encoded_origin s) u = (Exn e, u)).
Proof. exact origin_replaced. Qed.
Print Assumptions C37_origin_is_replaced_partial.
Example C37_example :
  seen (url_after (plenty true) start [Set_encoded_origin (L "ftp://x")]) encoded_url = Val (L "ftp://x/a/b?k=v#f") /\
  origin_of (L "ftp://x") (L "ftp") (Some (mk_authority None (L "x") None)).
Proof.
  split; [vm_compute; reflexivity|]. split; [reflexivity|]. split; [exists "f"%char, (L "tp"); repeat split|].
  intros au E. injection E as <-. split; [discriminate|]. split; [left; repeat constructor|discriminate].
Qed.
(** But other strings are accepted, and their rest is put before the path. *)
Theorem C37_trailing_characters_refuted :
  exists (u u' : url), make_url (plenty true) (L "/p") = Val u /\
    run (plenty true) (Set_encoded_origin (L "http://h/x?y")) u = (Val tt, u') /\
    encoded_origin (view_of u') = Val (L "http://h") /\ encoded_path (view_of u') = Val (L "/x?y/p") /\
    forall sc oa, ~ origin_of (L "http://h/x?y") sc oa.
Proof.
  do 2 eexists. split; [vm_compute; reflexivity|]. split; [vm_compute; reflexivity|]. split; [vm_compute; reflexivity|]. split; [vm_compute; reflexivity|].
  eapply not_origin; [vm_compute; reflexivity|]. vm_compute. discriminate.
Qed.
Print Assumptions C37_trailing_characters_refuted.

(** ** C38, C39: two calls *)

(** Setting a component twice is the same as setting it once with the last
    value.  [leaves_slashes o2]: the last call removes the user or password, or
    is set_password_part(":"). *)
Theorem C38_last_writer_wins_partial :
  forall (E1 E2 E3 : env) (o1 o2 : op) (d : bool) (a : uri) (u : url) (x1 : unit) (u1 : url) (x2 : unit) (u2 : url) (x3 : unit) (w : url),
    sets o1 = sets o2 -> sets o2 <> None -> leaves_slashes o2 = false ->
    env_ok E1 -> env_ok E2 -> env_ok E3 -> arg_ok o1 -> arg_ok o2 -> rep (part_texts a) u ->
    ~ misbehaves (dbg E1) o1 a -> (forall b, rep (part_texts b) u1 -> ~ misbehaves (dbg E2) o2 b) -> ~ misbehaves (dbg E3) o2 a ->
    run E1 o1 u = (Val x1, u1) -> run E2 o2 u1 = (Val x2, u2) -> run E3 o2 u = (Val x3, w) ->
    same_url d (view_of u2) (view_of w).
Proof. exact last_writer_wins. Qed.
Print Assumptions C38_last_writer_wins_partial.
Example C38_hypotheses :
  exists u1 u2 w, rep (part_texts start_uri) start_url /\ sets (Set_encoded_user (L "x")) = sets (Set_user (L "y z")) /\
    sets (Set_user (L "y z")) <> None /\ leaves_slashes (Set_user (L "y z")) = false /\
    run (plenty true) (Set_encoded_user (L "x")) start_url = (Val tt, u1) /\ run (plenty true) (Set_user (L "y z")) u1 = (Val tt, u2) /\
    run (plenty true) (Set_user (L "y z")) start_url = (Val tt, w) /\
    ~ misbehaves true (Set_encoded_user (L "x")) start_uri /\ forall b, ~ misbehaves true (Set_user (L "y z")) b.
Proof.
  do 3 eexists. split; [apply start_covered|]. split; [reflexivity|]. split; [discriminate|]. split; [reflexivity|].
  split; [vm_compute; reflexivity|]. split; [vm_compute; reflexivity|]. split; [vm_compute; reflexivity|]. split; [intros H|intros b H]; exact H.
Qed.
Example C38_example :
  seen (url_after (plenty true) (L "/p") [Set_port (L "1"); Set_port []]) encoded_url = Val (L "/p") /\
  seen (url_after (plenty true) (L "/p") [Set_user (L "a"); Set_user (L "b")]) encoded_url =
  seen (url_after (plenty true) (L "/p") [Set_user (L "b")]) encoded_url.
Proof. vm_compute. auto. Qed.
(** set_user("x"), set_user("") leaves "//" behind, set_user("") does not add it. *)
Theorem C38_empty_user_refuted :
  exists u1 u2 w, run (plenty true) (Set_user (L "x")) url0 = (Val tt, u1) /\ run (plenty true) (Set_user []) u1 = (Val tt, u2) /\
    run (plenty true) (Set_user []) url0 = (Val tt, w) /\
    encoded_url (view_of u2) = Val (L "//") /\ encoded_url (view_of w) = Val [].
Proof. do 3 eexists. split; [vm_compute; reflexivity|]. vm_compute. repeat split; reflexivity. Qed.
Print Assumptions C38_empty_user_refuted.

(** If both orders succeed, setting different ones of scheme, authority (or any part of it), path,
    query and fragment commutes. *)
Theorem C39_setters_commute :
  forall (E1 E2 E3 E4 : env) (o1 o2 : op) (d : bool) (a : uri) (u : url)
         (x1 : unit) (u1 : url) (x2 : unit) (u2 : url) (x3 : unit) (w1 : url) (x4 : unit) (w2 : url),
    top o1 <> None -> top o2 <> None -> top o1 <> top o2 ->
    env_ok E1 -> env_ok E2 -> env_ok E3 -> env_ok E4 -> arg_ok o1 -> arg_ok o2 -> rep (part_texts a) u ->
    ~ misbehaves (dbg E1) o1 a -> (forall b, rep (part_texts b) u1 -> ~ misbehaves (dbg E2) o2 b) ->
    ~ misbehaves (dbg E3) o2 a -> (forall b, rep (part_texts b) w1 -> ~ misbehaves (dbg E4) o1 b) ->
    run E1 o1 u = (Val x1, u1) -> run E2 o2 u1 = (Val x2, u2) ->
    run E3 o2 u = (Val x3, w1) -> run E4 o1 w1 = (Val x4, w2) ->
    same_url d (view_of u2) (view_of w2).
Proof. exact setters_commute. Qed.
Print Assumptions C39_setters_commute.
Example C39_hypotheses :
  exists u1 u2 w1 w2, rep (part_texts start_uri) start_url /\ top (Set_encoded_path (L "/x")) <> None /\ top (Set_port []) <> None /\
    top (Set_encoded_path (L "/x")) <> top (Set_port []) /\
    (forall b, ~ misbehaves true (Set_encoded_path (L "/x")) b /\ ~ misbehaves true (Set_port []) b) /\
    run (plenty true) (Set_encoded_path (L "/x")) start_url = (Val tt, u1) /\ run (plenty true) (Set_port []) u1 = (Val tt, u2) /\
    run (plenty true) (Set_port []) start_url = (Val tt, w1) /\ run (plenty true) (Set_encoded_path (L "/x")) w1 = (Val tt, w2).
Proof.
  do 4 eexists. split; [apply start_covered|]. split; [discriminate|]. split; [discriminate|]. split; [discriminate|].
  split; [intros b; split; intros H; exact H|]. split; [vm_compute; reflexivity|]. split; [vm_compute; reflexivity|]. split; vm_compute; reflexivity.
Qed.
Example C39_example :
  seen (url_after (plenty true) start [Set_query (L "1"); Set_fragment []]) encoded_url = Val (L "http://u:p@h:80/a/b?1") /\
  seen (url_after (plenty true) start [Set_fragment []; Set_query (L "1")]) encoded_url = Val (L "http://u:p@h:80/a/b?1").
Proof. vm_compute. auto. Qed.
(** Whether a path is accepted depends on the scheme, so one order can succeed
    and the other throw. *)
Example C39_rejection_depends_on_order :
  seen (url_after (plenty true) [] [Set_scheme (L "x"); Set_encoded_path (L "a:b")]) encoded_url = Val (L "x:a:b") /\
  fst (run (plenty true) (Set_encoded_path (L "a:b")) url0) = Exn invalid_part.
Proof. vm_compute. auto. Qed.

(** ** C42, C43: the calls that damage the URL or fire an assertion, exactly *)

(** With assertions enabled, set_user("") aborts exactly on an authority without
    userinfo; otherwise it removes the user. *)
Theorem C42_empty_user_exact :
  forall (E : env) (a : uri) (u : url), env_ok E -> dbg E = true -> rep (part_texts a) u ->
    (run E (Set_user []) u = (Abort, u) <-> uri_authority a <> None /\ the_userinfo a = None) /\
    (run E (Set_user []) u <> (Abort, u) -> exists u', run E (Set_user []) u = (Val tt, u') /\ removed true (Set_user []) (view_of u')).
Proof. exact empty_user_exact. Qed.
Print Assumptions C42_empty_user_exact.
Example C42_example :
  seen (url_after (plenty true) (L "//u:p@h") [Set_user []]) encoded_url = Val (L "//:p@h") /\
  seen (url_after (plenty true) (L "/h") [Set_user []]) encoded_url = Val (L "/h") /\
  seen (url_after (plenty true) (L "//h") [Set_user []]) encoded_url = Abort.
Proof. vm_compute. auto. Qed.

(** set_port_part(":") without authority stores the colon but no "//"; the
    accessor of the authority then reads outside of it. *)
Theorem C43_port_colon_exact :
  forall (E : env) (a : uri) (u : url) (x : unit) (u' : url), env_ok E -> rep (part_texts a) u -> uri_authority a = None ->
    run E (Set_port_part (L ":")) u = (Val x, u') ->
    encoded_url (view_of u') = Val (opt (fun s => s ++ L ":") (uri_scheme a) ++ L ":" ++ uri_path a ++ opt (cons "?"%char) (uri_query a) ++ opt (cons "#"%char) (uri_fragment a)) /\
    forall d, port_part d (view_of u') = Val (L ":") /\ encoded_authority d (view_of u') = if d then Abort else UB.
Proof. exact port_colon_exact. Qed.
Print Assumptions C43_port_colon_exact.
Example C43_example : seen (url_after (plenty true) (L "x:/p?q") [Set_port_part (L ":")]) encoded_url = Val (L "x::/p?q").
Proof. vm_compute. reflexivity. Qed.
