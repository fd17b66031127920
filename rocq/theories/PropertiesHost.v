(** * Properties: host() after any history (C113) *)

From Verif Require Import Base ModelChar ModelParts ModelView ModelUrl SpecChar SpecGrammar SpecLink SpecView SpecStore SpecUrl SpecHistory SpecSetters
  ProofsSetters ProofsHost.

(** ** C113: host() returns the decoded host

    Refuted: set_encoded_authority and set_encoded_origin do not update the host
    type, and host() decodes only if the type says that the host is a name. *)
Theorem C113_decoded_host_refuted :
  exists u1 u v1 v w1 w,
    run (plenty true) (Set_encoded_authority (L "a%20b")) url0 = (Val tt, u1) /\ u = view_of u1 /\
    encoded_host u = Val (L "a%20b") /\ get_host u = Val (L "a%20b") /\ get_host_type u = host_none /\
    run (plenty true) (Set_encoded_origin (L "http://a%20b")) url0 = (Val tt, v1) /\ v = view_of v1 /\ get_host v = Val (L "a%20b") /\
    (exists x, make_url (plenty true) (L "//1.2.3.4") = Val x /\ run (plenty true) (Set_encoded_authority (L "%41")) x = (Val tt, w1)) /\
    w = view_of w1 /\ get_host w = Val (L "%41") /\ get_host_type w = host_ipv4.
Proof.
  do 6 eexists. split; [vm_compute; reflexivity|]. split; [reflexivity|]. split; [vm_compute; reflexivity|]. split; [vm_compute; reflexivity|].
  split; [vm_compute; reflexivity|]. split; [vm_compute; reflexivity|]. split; [reflexivity|]. split; [vm_compute; reflexivity|].
  split; [eexists; split; vm_compute; reflexivity|]. split; [reflexivity|]. split; vm_compute; reflexivity.
Qed.
Print Assumptions C113_decoded_host_refuted.

(** The exact result, for every URL that any sequence of calls can produce. *)
Theorem C113_host_exact_partial :
  forall (d : bool) (u : url), reachable d u ->
    exists a t, rep (part_texts a) u /\ decodes (the_host a) t /\
      get_host (view_of u) = Val (match get_host_type (view_of u) with host_name => t | _ => the_host a end) /\
      (get_host (view_of u) = Val t <-> get_host_type (view_of u) = host_name \/ ~ In "%"%char (the_host a)).
Proof. exact host_reachable. Qed.
Print Assumptions C113_host_exact_partial.

(** Every parsed URL returns the decoded host, *)
Theorem C113_parsed_partial :
  forall (d : bool) (s : str) (v : view), make_url_view d s = Val v ->
    exists a t, shows d v a /\ recompose a = s /\ decodes (the_host a) t /\ get_host v = Val t.
Proof. exact host_parsed. Qed.
Print Assumptions C113_parsed_partial.

(** and so does every url whose host was never changed by other calls than
    set_host, set_encoded_host and set_encoded_url with a non-empty string. *)
Theorem C113_kept_partial :
  forall (d : bool) (u0 u : url), fresh u0 -> history keeps_host_type d u0 u ->
    exists a t, rep (part_texts a) u /\ decodes (the_host a) t /\ get_host (view_of u) = Val t.
Proof. exact host_kept. Qed.
Print Assumptions C113_kept_partial.

Example C113_example :
  (exists v, make_url_view true (L "http://a%20b/") = Val v /\ get_host v = Val (L "a b")) /\
  (exists v, make_url_view true (L "http://1.2.3.4/") = Val v /\ get_host v = Val (L "1.2.3.4")) /\
  (exists u, run (plenty true) (Set_encoded_host (L "x%41")) url0 = (Val tt, u) /\
     fresh url0 /\ history keeps_host_type true url0 u /\ get_host (view_of u) = Val (L "xA")).
Proof.
  split; [eexists; split; vm_compute; reflexivity|]. split; [eexists; split; vm_compute; reflexivity|].
  destruct (run (plenty true) (Set_encoded_host (L "x%41")) url0) as [r u] eqn:E. exists u. split.
  - vm_compute in E. injection E as <- <-. reflexivity.
  - split; [left; reflexivity|]. split.
    + eapply (history_call _ _ _ (plenty true) (Set_encoded_host (L "x%41"))); [constructor|left; reflexivity|exact (plenty_ok true)|reflexivity|exact I|intros a _ H; exact H|exact E].
    + vm_compute in E. injection E as <- <-. vm_compute. reflexivity.
Qed.
