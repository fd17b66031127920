(** * PropertiesInject: setting one component does not change what others read in the rest *)

From Verif Require Import Base ModelChar ModelParse ModelParts ModelView ModelUrl SpecChar SpecGrammar SpecLink SpecView SpecStore SpecUrl SpecHistory SpecSetters SpecSegments SpecMixed SpecSplit SpecInject
  ProofsHistory ProofsInject.

(** ** C86: plain text stays in its component *)

(** [rfc_split]: the regular expression of RFC 3986, appendix B, as any other
    program may use it on the text of the url.  It finds the components of the
    url exactly if the path stands out. *)
Theorem C86_when_the_text_tells :
  forall (d : bool) (u : url), reachable d u ->
    exists a, shows d (view_of u) a /\ (rfc_split (recompose a) = a <-> path_stands_out a).
Proof. exact text_tells. Qed.
Print Assumptions C86_when_the_text_tells.
(** Setting user, password, host, query or fragment to any text: readers of the
    result find that text in that component and everything else as before,
    exactly if the path can follow. *)
Theorem C86_plain_setters_cannot_inject :
  forall (d : bool) (u : url) (E : env) (o : op) (u' : url) (t : str),
    reachable d u -> env_ok E -> dbg E = d -> plain_text o -> run E o u = (Val tt, u') ->
    encoded_url (view_of u) = Val t -> shows d (view_of u) (rfc_split t) ->
    exists t', encoded_url (view_of u') = Val t' /\
      (path_can_follow o (rfc_split t) ->
         shows d (view_of u') (rfc_split t') /\ same_except o (rfc_split t) (rfc_split t') /\ carries o (rfc_split t')) /\
      (~ path_can_follow o (rfc_split t) -> ~ shows d (view_of u') (rfc_split t')).
Proof. exact plain_cannot_inject. Qed.
Print Assumptions C86_plain_setters_cannot_inject.
(** The same for every modifier, as long as the text tells the components. *)
Theorem C86_no_call_injects :
  forall (d : bool) (u : url) (E : env) (o : op) (u' : url) (t t' : str),
    reachable d u -> env_ok E -> dbg E = d -> arg_ok o -> clean_origin o ->
    (forall a, rep (part_texts a) u -> ~ breaks d o a) -> run E o u = (Val tt, u') ->
    encoded_url (view_of u) = Val t -> shows d (view_of u) (rfc_split t) ->
    encoded_url (view_of u') = Val t' -> shows d (view_of u') (rfc_split t') ->
    same_except o (rfc_split t) (rfc_split t').
Proof. exact no_call_injects. Qed.
Print Assumptions C86_no_call_injects.
Example C86_example :
  seen (url_after (plenty true) (L "http://h/p") [Set_user (L "a@b/c?d#e"); Set_query (L "#x")]) encoded_url = Val (L "http://a%40b%2Fc%3Fd%23e@h/p?%23x") /\
  rfc_split (L "http://a%40b%2Fc%3Fd%23e@h/p?%23x") =
    mk_uri (Some (L "http")) (Some (mk_authority (Some (L "a%40b%2Fc%3Fd%23e")) (L "h") None)) (L "/p") (Some (L "%23x")) None /\
  path_can_follow (Set_user (L "a@b/c?d#e")) (rfc_split (L "http://h/p")).
Proof. split; [vm_compute; reflexivity|]. split; [vm_compute; reflexivity|]. left. discriminate. Qed.
(** url("b/c") with a host added reads as another host and another path. *)
Theorem C86_relative_path_refuted :
  exists u u', make_url (plenty true) (L "b/c") = Val u /\ run (plenty true) (Set_host (L "h")) u = (Val tt, u') /\
    encoded_path (view_of u') = Val (L "b/c") /\
    encoded_url (view_of u') = Val (L "//hb/c") /\ the_host (rfc_split (L "//hb/c")) = L "hb" /\ uri_path (rfc_split (L "//hb/c")) = L "/c".
Proof. do 2 eexists. split; [vm_compute; reflexivity|]. split; [vm_compute; reflexivity|]. vm_compute. auto. Qed.
Print Assumptions C86_relative_path_refuted.

(** ** C87: a segment stays a segment *)

(** Editing segments with any text: readers find the edited list of segments and
    everything else as before, exactly unless the path now begins with "//" and
    there is no authority. *)
Theorem C87_edits_cannot_inject :
  forall (d : bool) (u0 u : url) (E : env) (e : edit) (p : seg_it) (u' : url) (t : str),
    fresh u0 -> terminated u0 -> mixed d u0 u -> env_ok E -> dbg E = d ->
    encoded_url (view_of u) = Val t -> shows d (view_of u) (rfc_split t) -> in_range e (rfc_split t) ->
    run_edit E e u = (Val p, u') ->
    let ss := list_edit e (the_segments (rfc_split t)) in
    exists t', encoded_url (view_of u') = Val t' /\
      (~ double_slash (rfc_split t) ss -> rfc_split t' = with_path (uri_path (rfc_split t')) (rfc_split t) /\ the_segments (rfc_split t') = ss) /\
      (double_slash (rfc_split t) ss -> ~ shows d (view_of u') (rfc_split t')).
Proof. exact edits_cannot_inject. Qed.
Print Assumptions C87_edits_cannot_inject.
Definition after_edit (s : str) (e : edit) : outcome str :=
  let! u := make_url (plenty false) s in
  let '(r, u') := run_edit (plenty false) e u in let! _ := r in encoded_url (view_of u').
Example C87_example :
  after_edit (L "x:/a/b?q") (Insert 1 (L "/../?#")) = Val (L "x:/a/%2F..%2F%3F%23/b?q") /\
  the_segments (rfc_split (L "x:/a/%2F..%2F%3F%23/b?q")) = [L "a"; L "%2F..%2F%3F%23"; L "b"].
Proof. vm_compute. auto. Qed.
(** An empty segment in front makes the next one a host. *)
Theorem C87_empty_segment_refuted :
  after_edit (L "/a") (Insert 0 []) = Val (L "//a") /\ the_host (rfc_split (L "//a")) = L "a" /\
  exists v, make_url_view false (L "//a") = Val v /\ encoded_host v = Val (L "a") /\ encoded_path v = Val [].
Proof. split; [vm_compute; reflexivity|]. split; [vm_compute; reflexivity|]. eexists. split; [vm_compute; reflexivity|]. vm_compute. auto. Qed.
Print Assumptions C87_empty_segment_refuted.
