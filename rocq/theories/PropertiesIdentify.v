(** * PropertiesIdentify: which accessors tell URLs apart

    [ask d q v]: a function of url is called ([ask_view]: of url_view).  [delimited]:
    accessors that return the delimiters of the component; [undelimited]: the others;
    [shortened]: a URL without its empty password, port, query and fragment.
    [stands d u c]: the url [u], however it was modified, has the components
    [c_uri c].  See SpecIdentify.v and SpecProgram.v. *)

From Verif Require Import Base ModelChar ModelParts ModelView ModelUrl SpecChar SpecGrammar SpecLink SpecView SpecProgram SpecSetters SpecSegments PropertiesUrls PropertiesHolder PropertiesTexts SpecViews SpecIdentify
  ProofsHistory ProofsParseProps ProofsIdentify.

(** ** C121 *)

(** Two url_views answer alike for the delimited accessors exactly if they have the
    same text. *)
Theorem C121_views : forall d a a' v v', wf accepted a -> wf accepted a' -> make_url_view d (recompose a) = Val v -> make_url_view d (recompose a') = Val v' ->
  ((forall q, In q delimited -> ask_view d q v = ask_view d q v') <-> recompose a = recompose a').
Proof. exact views_delimited. Qed.
Print Assumptions C121_views.

(** Two urls answer alike exactly if they have the same components. *)
Theorem C121_urls : forall d u u' c c', stands d u c -> stands d u' c' ->
  ((forall q, In q delimited -> ask d q (view_of u) = ask d q (view_of u')) <-> c_uri c = c_uri c').
Proof. exact urls_delimited. Qed.
Print Assumptions C121_urls.

(** A url and a url_view. *)
Theorem C121_url_and_view : forall d u c a v, stands d u c -> wf accepted a -> make_url_view d (recompose a) = Val v ->
  ((forall q, In q delimited -> ask d q (view_of u) = ask_view d q v) <-> c_uri c = a).
Proof. exact mixed_delimited. Qed.
Print Assumptions C121_url_and_view.

(** The accessors that drop the delimiters tell less: exactly the empty password,
    port, query and fragment cannot be told from none. *)
Theorem C121_undelimited_views : forall d a a' v v', wf accepted a -> wf accepted a' -> make_url_view d (recompose a) = Val v -> make_url_view d (recompose a') = Val v' ->
  ((forall q, In q undelimited -> ask_view d q v = ask_view d q v') <-> shortened a = shortened a').
Proof. exact views_undelimited. Qed.
Print Assumptions C121_undelimited_views.
Theorem C121_undelimited_urls : forall d u u' c c', stands d u c -> stands d u' c' ->
  ((forall q, In q undelimited -> ask d q (view_of u) = ask d q (view_of u')) <-> shortened (c_uri c) = shortened (c_uri c')).
Proof. exact urls_undelimited. Qed.
Print Assumptions C121_undelimited_urls.

(** ** Examples *)

(** Every delimited accessor is needed: two texts that only this one tells apart. *)
Definition told_apart_by (q : question) : str * str :=
  match q with
  | Q_scheme => (L "a:/x", L "b:/x")
  | Q_has_authority => (L "//", [])
  | Q_userinfo_part => (L "//u@h", L "//u:@h")
  | Q_encoded_host => (L "//g", L "//h")
  | Q_port_part => (L "//h:", L "//h")
  | Q_path => (L "/a/", L "/a")
  | Q_query_part => (L "/a/?", L "/a/")
  | _ => (L "/a/#", L "/a/")
  end.
Example C121_each_is_needed : forall d q, In q delimited -> exists v v', make_url_view d (fst (told_apart_by q)) = Val v /\ make_url_view d (snd (told_apart_by q)) = Val v' /\
  (forall p, In p delimited -> p <> q -> ask_view d p v = ask_view d p v') /\ ask_view d q v <> ask_view d q v'.
Proof.
  intros d q H. cbn [In delimited] in H.
  repeat (destruct H as [<- |H]; [destruct d; do 2 eexists; (split; [vm_compute; reflexivity|]); (split; [vm_compute; reflexivity|]); (split;
    [intros p K N; cbn [In delimited] in K; repeat (destruct K as [<- |K]; [first [now destruct N|vm_compute; reflexivity]|]); destruct K|vm_compute; discriminate])|]). destruct H.
Qed.
(** Two URLs that the other accessors do not tell apart. *)
Example C121_undelimited_holds : forall d, exists a a' v v', wf accepted a /\ wf accepted a' /\ make_url_view d (recompose a) = Val v /\ make_url_view d (recompose a') = Val v' /\
  recompose a = L "http://u:@h:/a/?#" /\ recompose a' = L "http://u@h/a/" /\ (forall q, In q undelimited -> ask_view d q v = ask_view d q v') /\ shortened a = shortened a'.
Proof.
  intros d.
  destruct (make_url_view d (L "http://u:@h:/a/?#")) as [v| | | |] eqn:E; [|destruct d; vm_compute in E; discriminate E ..].
  destruct (make_url_view d (L "http://u@h/a/")) as [v'| | | |] eqn:E'; [|destruct d; vm_compute in E'; discriminate E' ..].
  destruct (proj1 (view_iff d _) (ex_intro _ v E)) as (a & W & R), (proj1 (view_iff d _) (ex_intro _ v' E')) as (a' & W' & R').
  assert (H : forall q, In q undelimited -> ask_view d q v = ask_view d q v').
  { intros q H. cbn [In undelimited] in H. repeat (destruct H as [<- |H]; [destruct d; vm_compute in E, E'; injection E as <-; injection E' as <-; vm_compute; reflexivity|]). destruct H. }
  rewrite <- R in E. rewrite <- R' in E'. exists a, a', v, v'. do 7 (split; [assumption|]). exact (proj1 (views_undelimited d a a' v v' W W' E E') H).
Qed.
(** A url meets the hypotheses of the theorems about urls. *)
Example C121_stands : forall d, stands d (the_url d two_text) (parsed_desc two_uri host_name).
Proof. intros d. exact (proj1 (C117_pieces_holds d)). Qed.
