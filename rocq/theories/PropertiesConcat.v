(** * PropertiesConcat: text appended to the text of a URL

    [views d s a]: the text [s] is accepted, with the components [a].
    [bare_root s]: [s] is the path "/", possibly after a scheme (SpecConcat.v).
    [with_fragment], [with_query], [with_path]: one component replaced
    (SpecUrl.v). *)

From Verif Require Import Base ModelChar ModelParts ModelParse ModelView SpecChar SpecGrammar SpecView SpecUrl SpecConcat ProofsConcat.

(** ** C105: appending a fragment, a query or a segment to the text *)

(** Appending "#f" gives a URL exactly if the text is a URL without fragment and
    [f] can be a fragment, and it adds the fragment [f] and nothing else. *)
Theorem C105_fragment :
  forall (d : bool) (s f : str) (b : uri), ~ bare_root s ->
    (views d (s ++ "#"%char :: f) b <->
     exists a, views d s a /\ uri_fragment a = None /\ text accepted k_fragment f /\ b = with_fragment (Some f) a).
Proof. exact append_fragment. Qed.
Print Assumptions C105_fragment.
(** Appending "?q" to a text without "?" and "#". *)
Theorem C105_query :
  forall (d : bool) (s q : str) (b : uri), ~ bare_root s -> ~ In "?"%char s -> ~ In "#"%char s -> ~ In "#"%char q ->
    (views d (s ++ "?"%char :: q) b <->
     exists a, views d s a /\ text accepted k_query q /\ b = with_query (Some q) a).
Proof. exact append_query. Qed.
Print Assumptions C105_query.
(** Appending "/e" to a URL with an authority, without query and fragment. *)
Theorem C105_path :
  forall (d : bool) (s : str) (a : uri) (e : str) (b : uri),
    views d s a -> uri_authority a <> None -> uri_query a = None -> uri_fragment a = None ->
    ~ In "?"%char e -> ~ In "#"%char e ->
    (views d (s ++ "/"%char :: e) b <-> path_text HEXDIG_UPPER e /\ b = with_path (uri_path a ++ "/"%char :: e) a).
Proof. exact append_path. Qed.
Print Assumptions C105_path.
(** Appending "?" or "#" to a bare root never adds a query or a fragment: if the
    text is accepted at all, it has become part of the path. *)
Theorem C105_bare_roots :
  forall (d : bool) (s : str) (x : char) (t : str) (b : uri), bare_root s -> x = "?"%char \/ x = "#"%char ->
    views d (s ++ x :: t) b -> uri_authority b = None /\ exists r, uri_path b = "/"%char :: x :: r.
Proof. exact root_swallows. Qed.
Print Assumptions C105_bare_roots.
Theorem C105_refuted :
  exists v w x y, make_url_view true (L "/") = Val v /\ encoded_path v = Val (L "/") /\
    make_url_view true (L "/#f") = Val w /\ encoded_path w = Val (L "/#f") /\ encoded_fragment true w = Val [] /\
    make_url_view true (L "http:/") = Val x /\ encoded_path x = Val (L "/") /\
    make_url_view true (L "http:/?q") = Val y /\ encoded_path y = Val (L "/?q") /\ encoded_query true y = Val [].
Proof. do 4 eexists. split; [vm_compute; reflexivity|]. split; [vm_compute; reflexivity|]. split; [vm_compute; reflexivity|]. split; [vm_compute; reflexivity|]. split; [vm_compute; reflexivity|]. split; [vm_compute; reflexivity|]. split; [vm_compute; reflexivity|]. split; [vm_compute; reflexivity|]. split; vm_compute; reflexivity. Qed.
Print Assumptions C105_refuted.

Example C105_example :
  let s := L "http://h/a" in let a := mk_uri (Some (L "http")) (Some (mk_authority None (L "h") None)) (L "/a") None None in
  views true s a /\ ~ bare_root s /\ ~ In "?"%char s /\ ~ In "#"%char s /\
  (exists v, make_url_view true (s ++ L "/b%20?k=v#f") = Val v /\ encoded_path v = Val (L "/a/b%20") /\ encoded_query true v = Val (L "k=v") /\ encoded_fragment true v = Val (L "f")) /\
  make_url_view true (s ++ L "#f#") = Exn invalid_part.
Proof.
  cbv zeta. split; [|split; [|split; [|split; [|split]]]].
  - apply views_wf. split; [|vm_compute; reflexivity]. split; [|split; [|split; [|split]]]; try discriminate.
    + intros x E. injection E as <-. exists "h"%char, (L "ttp"). auto.
    + intros x E. injection E as <-. split; [discriminate|]. split; [|discriminate]. left. apply pt_char; [reflexivity|constructor].
    + split; [apply pt_char; [reflexivity|]; apply pt_char; [reflexivity|constructor]|]. right. exists (L "a"). reflexivity.
  - intros [H|(sc & _ & H)]; [discriminate H|]. assert (E : rev (L "http://h/a") = rev (sc ++ L ":/")) by (rewrite H; reflexivity). rewrite rev_app_distr in E. discriminate E.
  - cbn. intuition discriminate.
  - cbn. intuition discriminate.
  - eexists. split; [vm_compute; reflexivity|]. split; [vm_compute; reflexivity|]. split; vm_compute; reflexivity.
  - vm_compute. reflexivity.
Qed.
