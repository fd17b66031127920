(** * PropertiesDecoded: writing back decoded text

    A decoded text [t] is read from a url, [ask d q (view_of u) = Val (Text t)], copied,
    and passed to the modifier of the same component that takes plain text,
    [writes_plain q t].  [misbehaves]: the assertion in set_user("") (C42).
    [stands d u c]: the url [u], however it was modified, has the components
    [c_uri c]; [step]: the components after a call.  See SpecDecoded.v, SpecProgram.v
    and SpecUrl.v. *)

From Verif Require Import Base ModelChar ModelParts ModelView ModelUrl SpecChar SpecGrammar SpecLink SpecView SpecStore SpecUrl SpecProgram SpecSetters SpecSegments ProofsSetters PropertiesUrls PropertiesHolder PropertiesTexts
  SpecDecoded ProofsDecoded.

(** ** C123 *)

(** The call succeeds without memory - whatever the allocator does; the same text is
    read afterwards, and the URL has not become longer. *)
Theorem C123_decoded_back : forall d E u c q t o,
  env_ok E -> dbg E = d -> stands d u c -> host_right q c -> ask d q (view_of u) = Val (Text t) -> writes_plain q t = Some o -> ~ misbehaves d o (c_uri c) ->
  exists u' c', run E o u = (Val tt, u') /\ stands d u' c' /\ ask d q (view_of u') = Val (Text t) /\ step o (c_uri c) (c_uri c') /\ length (recompose (c_uri c')) <= length (recompose (c_uri c)) /\
    st_cap (u_st u') = st_cap (u_st u) /\ st_allocs (u_st u') = st_allocs (u_st u).
Proof. exact decoded_back. Qed.
Print Assumptions C123_decoded_back.

(** [after d s q f]: a url is made of [s], the text that [q] reads is written back, and
    [f] is called. *)
Definition after (d : bool) (s : str) (q f : question) : outcome answer :=
  match make_url (plenty d) s with
  | Val u => match ask d q (view_of u) with
             | Val (Text t) => match writes_plain q t with
                               | Some o => let (r, u') := run (plenty d) o u in match r with Val _ => ask d f (view_of u') | Exn e => Exn e | _ => UB end
                               | None => UB
                               end
             | _ => UB
             end
  | _ => UB
  end.
(** The parameters, and the type of the host, may be others. *)
Theorem C123_parameters_refuted : exists s, forall d, ask d Q_params (view_of (the_url d s)) = Val (Pairs [(L "a", L "1%26b=2")]) /\
  after d s Q_query Q_params = Val (Pairs [(L "a", L "1"); (L "b", L "2")]) /\ after d s Q_query Q_query = ask d Q_query (view_of (the_url d s)).
Proof. exists (L "x:?a=1%26b=2"). intros d. destruct d; vm_compute; auto. Qed.
Print Assumptions C123_parameters_refuted.
Theorem C123_host_type_refuted : exists s, forall d, ask d Q_host_type (view_of (the_url d s)) = Val (Kind host_name) /\
  after d s Q_host Q_host_type = Val (Kind host_ipv4) /\ after d s Q_host Q_host = ask d Q_host (view_of (the_url d s)).
Proof. exists (L "//%31.2.3.4"). intros d. destruct d; vm_compute; auto. Qed.
Print Assumptions C123_host_type_refuted.

(** ** Examples *)

Example C123_holds : forall d q, writes_plain q [] <> None ->
  stands d (the_url d two_text) (parsed_desc two_uri host_name) /\ env_ok (plenty d) /\ host_right q (parsed_desc two_uri host_name) /\
  exists t o, ask d q (view_of (the_url d two_text)) = Val (Text t) /\ writes_plain q t = Some o /\ (d = false -> ~ misbehaves d o two_uri).
Proof.
  intros d q H. split; [exact (proj1 (C117_pieces_holds d))|]. split; [exact (plenty_ok d)|].
  destruct q; cbn [writes_plain] in H; try (now destruct H); (split; [|destruct d; do 2 eexists; (split; [vm_compute; reflexivity|]); (split; [reflexivity|]); intros E; try discriminate E; cbn [misbehaves]; intros K; try exact K; destruct K as (K & _); discriminate K]);
    try exact I.
  split; [discriminate|]. split; [intros (t & K); discriminate K|]. intros (x & r & _ & (b & e & f & _ & _ & _ & ->) & K).
  apply (f_equal (@length _)) in K. rewrite app_length in K. cbn in K. rewrite app_length in K. cbn in K. lia.
Qed.
