(** * Properties: the modifiers against their documentation (C112) *)

From Verif Require Import Base ModelChar ModelParts ModelView ModelUrl SpecChar SpecGrammar SpecLink SpecView SpecStore SpecUrl SpecHistory SpecSetters SpecSplit
  SpecModDoc ProofsSetters ProofsModDoc.

(** ** C112: the modifiers do what their documentation says

    Refuted.  On "http://u:p@h/x": a scheme with a digit, a lower case escape and a
    password that begins with a colon are rejected; a password part without colon
    is taken; "@" removes the userinfo instead of leaving it empty; a userinfo as a
    whole is stored wrongly; an IPvFuture host is percent-encoded; the origin "//h"
    is rejected and the origin "http://h/y" taken; the query of "/?q" ends up in the
    path. *)
Theorem C112_documented_refuted :
  exists u, make_url (plenty true) (L "http://u:p@h/x") = Val u /\ rep (part_texts md_full) u /\
    forall o, In o [Set_scheme (L "h2"); Set_encoded_query (L "%2f"); Set_encoded_password (L ":x"); Set_password_part (L "xy");
                    Set_userinfo_part (L "@"); Set_encoded_userinfo (L "a:b"); Set_host (L "[v1.x]");
                    Set_encoded_origin (L "//h"); Set_encoded_origin (L "http://h/y"); Set_encoded_url (L "/?q")] ->
      ~ as_documented (plenty true) o md_full u.
Proof. exact deviations_full. Qed.
Print Assumptions C112_documented_refuted.

(** On "/x", without authority: a wrong character is taken as the first of a path,
    an empty password is not stored, an empty port does not belong to an
    authority. *)
Theorem C112_no_authority_refuted :
  exists u, make_url (plenty true) (L "/x") = Val u /\ rep (part_texts md_path) u /\
    forall o, In o [Set_encoded_path (L "/<"); Set_password_part (L ":"); Set_port_part (L ":")] ->
      ~ as_documented (plenty true) o md_path u.
Proof. exact deviations_path. Qed.
Print Assumptions C112_no_authority_refuted.

(** On "//h", with assertions: clearing the user fires one. *)
Theorem C112_no_user_refuted :
  exists u, make_url (plenty true) (L "//h") = Val u /\ rep (part_texts md_host) u /\
    forall o, In o [Set_user []; Set_encoded_user []] -> ~ as_documented (plenty true) o md_host u.
Proof. exact deviations_host. Qed.
Print Assumptions C112_no_user_refuted.

(** The strongest true version: every call that [follows] does what is documented,
    on every URL and with every pattern of allocation failures. *)
Theorem C112_documented_partial :
  forall (E : env) (o : op) (a : uri) (u : url), env_ok E -> arg_ok o -> rep (part_texts a) u ->
    follows (dbg E) o a -> as_documented E o a u.
Proof. exact follows_documented. Qed.
Print Assumptions C112_documented_partial.

(** And no other does, unless it runs out of memory before the difference shows,
    or is set_encoded_origin and throws. *)
Theorem C112_only_these_partial :
  forall (E : env) (o : op) (a : uri) (u : url), env_ok E -> arg_ok o -> rep (part_texts a) u -> as_documented E o a u ->
    follows (dbg E) o a \/ (exists e, no_room e /\ run E o u = (Exn e, u)) \/
    (exists s, o = Set_encoded_origin s /\ run E o u = (Exn invalid_part, u)).
Proof. exact documented_follows. Qed.
Print Assumptions C112_only_these_partial.

(** Some calls always do what is documented. *)
Theorem C112_always_partial :
  forall (d : bool) (o : op) (a : uri), arg_ok o ->
    match o with
    | Set_password _ | Set_port _ | Set_port_n _ | Set_query _ | Set_fragment _ | Normalize => True
    | Set_user s => s <> []
    | _ => False
    end -> follows d o a.
Proof. exact always_follows. Qed.
Print Assumptions C112_always_partial.

(** Concrete cases: set_encoded_query("a%2Fb") and set_encoded_host("") follow on
    "http://u:p@h/x", set_encoded_query("a b") follows and throws. *)
Example C112_example :
  follows true (Set_encoded_query (L "a%2Fb")) md_full /\
  documented (Set_encoded_query (L "a%2Fb")) md_full
    (mk_uri (Some (L "http")) (Some (mk_authority (Some (L "u:p")) (L "h") None)) (L "/x") (Some (L "a%2Fb")) None) /\
  follows true (Set_encoded_host []) md_full /\
  follows true (Set_encoded_query (L "a b")) md_full /\
  (exists u u', make_url (plenty true) (L "http://u:p@h/x") = Val u /\ rep (part_texts md_full) u /\
    run (plenty true) (Set_encoded_query (L "a%2Fb")) u = (Val tt, u') /\
    encoded_query true (view_of u') = Val (L "a%2Fb") /\
    run (plenty true) (Set_encoded_query (L "a b")) u = (Exn invalid_part, u)).
Proof.
  assert (Q : upper_text k_query (L "a%2Fb")) by (unfold upper_text; ptx).
  assert (N : forall hex, ~ pct_text hex (allowed k_query) (L "a b")).
  { intros hex H. inversion H as [|? ? _ Y|]; subst. inversion Y; subst; vm_compute in *; discriminate. }
  split; [|split; [|split; [|split]]].
  - split; [|split; [intros H; exact H|exact I]]. split; [|intros _; exact Q]. intros _. eexists. split; [apply upper_rfc, Q|reflexivity].
  - split; [apply upper_rfc, Q|reflexivity].
  - split; [|split; [intros H; exact H|exact I]]. split; [intros _; eexists; reflexivity|]. intros _. left. constructor.
  - split; [|split; [intros H; exact H|exact I]]. split; [intros H; destruct (N _ H)|]. intros (b & H & _). destruct (N _ H).
  - destruct (made_rep true md_full md_full_wf) as (u & Eu & R); [discriminate|vm_compute; reflexivity|].
    change (recompose md_full) with (L "http://u:p@h/x") in Eu.
    assert (U : u = match make_url (plenty true) (L "http://u:p@h/x") with Val u => u | _ => url0 end) by (rewrite Eu; reflexivity).
    exists u. eexists. split; [exact Eu|]. split; [exact R|]. split; [rewrite U; vm_compute; reflexivity|]. split; [vm_compute; reflexivity|]. rewrite U. vm_compute. reflexivity.
Qed.
