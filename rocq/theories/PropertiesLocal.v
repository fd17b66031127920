(** * PropertiesLocal: every function reads only its own part of the text

    [ask d q v]: a function of url ([ask_view]: of url_view) is called on the bytes
    and offsets [v].  [reads q]: which parts it reads.  [replies]: the answer that a
    URL with given components must give.  See SpecLocal.v and SpecProgram.v;
    SpecViews.v for url_view; [part_texts] is in SpecGrammar.v. *)

From Verif Require Import Base ModelChar ModelParts ModelView ModelUrl SpecChar SpecGrammar SpecLink SpecView SpecProgram SpecSetters SpecSegments PropertiesUrls PropertiesHolder SpecLocal SpecViews ProofsLocal ProofsViews.

(** ** C120 *)

(** Whatever the offsets are and whatever the bytes are - even indeterminate ones -
    the answer, or the failure, depends on no byte outside of the parts that are
    read. *)
Theorem C120_accessors : forall d q l l' pt, in_order pt -> iterates q = false -> same_cells (off pt (fst (reads q))) (off pt (snd (reads q))) l l' ->
  ask_view d q (mk_view l pt) = ask_view d q (mk_view l' pt) /\ ask d q (mk_view l pt) = ask d q (mk_view l' pt).
Proof. exact ask_cells. Qed.
Print Assumptions C120_accessors.

(** The functions that go through the segments or the params depend on no byte that
    precedes the path or the query. *)
Theorem C120_iterating : forall d q l l' pt, in_order pt -> iterates q = true -> same_rest (off pt (fst (reads q))) l l' ->
  ask_view d q (mk_view l pt) = ask_view d q (mk_view l' pt) /\ ask d q (mk_view l pt) = ask d q (mk_view l' pt).
Proof. exact ask_rest. Qed.
Print Assumptions C120_iterating.

(** A url_view is made of the text of [a], which is then replaced in place by the
    text of [a'], shorter or longer.  A function that reads only parts in which the
    two begin alike still answers as for [a]. *)
Theorem C120_modified : forall d a a' v q k, wf accepted a -> make_url_view d (recompose a) = Val v ->
  firstn k (part_texts a) = firstn k (part_texts a') -> iterates q = false -> snd (reads q) <= k ->
  exists r, ask_view d q (mk_view (map Some (recompose a')) (v_pt v)) = Val r /\ replies (parsed_desc a (get_host_type v)) q r.
Proof. exact view_modified. Qed.
Print Assumptions C120_modified.

(** ** Examples *)

Definition local_text : str := L "s://u:p@h:1/x?q#f".
(** The text with one character of part [k] changed. *)
Definition spoiled (k : nat) : str :=
  let i := nth k [0; 4; 6; 8; 10; 12; 14; 16] 0 in firstn i local_text ++ "z"%char :: skipn (S i) local_text.
Definition ask_spoiled (d : bool) (q : question) (k : nat) : outcome answer :=
  let! v := make_url_view d local_text in ask_view d q (mk_view (map Some (spoiled k)) (v_pt v)).

(** [reads] is exact: the answer does depend on every part that is read. *)
Example C120_exact : forall d q k, iterates q = false -> q <> Q_has_userinfo -> fst (reads q) <= k < snd (reads q) ->
  ask_spoiled d q k <> (let! v := make_url_view d local_text in ask_view d q v).
Proof.
  intros d q k I N H. destruct q; try discriminate I; try (now destruct N); cbn [reads fst snd] in H; try lia;
    (do 8 (destruct k as [|k]; [first [lia | destruct d; vm_compute; discriminate]|])); lia.
Qed.
(** The hypotheses of C120_accessors and C120_iterating hold of it, and the other
    parts do not matter. *)
Example C120_holds : forall d, exists v, make_url_view d local_text = Val v /\ in_order (v_pt v) /\
  same_cells (off (v_pt v) 3) (off (v_pt v) 4) (map Some local_text) (map Some (spoiled 1)) /\ map Some local_text <> map Some (spoiled 1) /\
  ask_spoiled d Q_encoded_host 1 = Val (Text (L "h")) /\ ask_spoiled d Q_user 1 = Val (Text (L "z")) /\
  same_rest (off (v_pt v) 5) (map Some local_text) (map Some (spoiled 4)) /\ ask d Q_segments (mk_view (map Some (spoiled 4)) (v_pt v)) = Val (Texts [L "x"]).
Proof.
  intros d. destruct (make_url_view d local_text) as [v| | | |] eqn:E; destruct d; vm_compute in E; try discriminate E; inversion E; subst v; eexists;
    (split; [reflexivity|]); (split; [intros i Hi; do 8 (destruct i as [|i]; [vm_compute; lia|]); lia|]); cbn [v_pt];
    (split; [split; [vm_compute; lia|split; [vm_compute; lia|vm_compute; reflexivity]]|]);
    (split; [vm_compute; discriminate|]); (split; [vm_compute; reflexivity|]); (split; [vm_compute; reflexivity|]);
    (split; [split; [vm_compute; lia|split; [vm_compute; lia|vm_compute; reflexivity]]|]); vm_compute; reflexivity.
Qed.
(** The hypotheses of C120_modified hold of "http://h/a/b?q#f" and the text with a
    longer fragment. *)
Definition longer_uri : uri := mk_uri (uri_scheme two_uri) (uri_authority two_uri) (uri_path two_uri) (uri_query two_uri) (Some (L "longer")).
Example C120_modified_holds : forall d, wf accepted two_uri /\ recompose longer_uri = L "http://h/a/b?q#longer" /\ firstn 7 (part_texts two_uri) = firstn 7 (part_texts longer_uri) /\
  exists v, make_url_view d (recompose two_uri) = Val v /\ ask_view d Q_query (mk_view (map Some (recompose longer_uri)) (v_pt v)) = Val (Text (L "q")).
Proof.
  intros d. split; [|split; [reflexivity|split; [reflexivity|destruct d; eexists; (split; vm_compute; reflexivity)]]].
  apply (parsed_wf d two_text two_uri); [destruct d; vm_compute; reflexivity|exact (ed_rep _ _ _ (two_editable d))].
Qed.
(** It matters that going through the segments is not among these functions: the
    iterator of a url_view goes on past the path, into the query (C62). *)
Example C120_past_the_path : exists v, make_url_view false (L "x:/a?q") = Val v /\ ask_view false Q_segments v = Hang /\
  ask_view false Q_segments (mk_view (map Some (L "x:/a/q")) (v_pt v)) = Val (Texts [L "a"]).
Proof. eexists. split; [vm_compute; reflexivity|]. split; vm_compute; reflexivity. Qed.
