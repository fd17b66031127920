(** * PropertiesBack: writing back what was read

    An encoded text [t] is read from a url, [ask d q (view_of u) = Val (Text t)], copied,
    and passed to the modifier of the same component, [writes q t].  [restored q a]:
    [a] without what was empty.  [taken]: the text is acceptable; [defective]: the
    known defects.  See SpecBack.v; [stands d u c] (SpecProgram.v): the url [u],
    however it was modified, has the components [c_uri c]. *)

From Verif Require Import Base ModelChar ModelParts ModelView ModelUrl SpecChar SpecGrammar SpecLink SpecView SpecStore SpecUrl SpecProgram SpecSetters SpecSegments ProofsSetters PropertiesUrls PropertiesHolder PropertiesTexts
  SpecIdentify SpecBack ProofsCopy ProofsBack.

(** ** C122 *)

(** The call succeeds without memory - whatever the allocator does - and only what
    was empty is gone. *)
Theorem C122_written_back : forall d E u c q t o,
  env_ok E -> dbg E = d -> stands d u c -> ask d q (view_of u) = Val (Text t) -> writes q t = Some o -> taken q (c_uri c) -> ~ defective d q (c_uri c) ->
  exists u' c', run E o u = (Val tt, u') /\ stands d u' c' /\ c_uri c' = restored q (c_uri c) /\ st_cap (u_st u') = st_cap (u_st u) /\ st_allocs (u_st u') = st_allocs (u_st u).
Proof. exact written_back. Qed.
Print Assumptions C122_written_back.

(** Otherwise the url refuses its own text, and stays as it is. *)
Theorem C122_refused : forall d E u c q t o,
  env_ok E -> dbg E = d -> stands d u c -> ask d q (view_of u) = Val (Text t) -> writes q t = Some o -> ~ taken q (c_uri c) -> run E o u = (Exn invalid_part, u).
Proof. exact refused_back. Qed.
Print Assumptions C122_refused.

(** ** Examples *)

(** "http://h/a/b?q#f" meets the hypotheses for every accessor, and it stays the same. *)
Example C122_holds : forall d q, writes q [] <> None ->
  stands d (the_url d two_text) (parsed_desc two_uri host_name) /\ env_ok (plenty d) /\ (exists t, ask d q (view_of (the_url d two_text)) = Val (Text t)) /\
  taken q two_uri /\ (d = false -> ~ defective d q two_uri) /\ restored q two_uri = two_uri.
Proof.
  intros d q H. split; [exact (proj1 (C117_pieces_holds d))|]. split; [exact (plenty_ok d)|].
  destruct q; cbn [writes] in H; try (now destruct H);
    (split; [destruct d; eexists; vm_compute; reflexivity|]); (split; [|split; [|vm_compute; reflexivity]]);
    cbn [taken defective]; try exact I; try (intros _ K; apply K; vm_compute; reflexivity); try (intros _ []; fail); try (intros _ K; now apply K); try (intros -> (K & _); discriminate K); try (left; discriminate); try (intros r; vm_compute; discriminate).
  apply path_for_own. refine (proj1 (proj2 (proj2 (parsed_wf d two_text two_uri _ (ed_rep _ _ _ (two_editable d)))))). destruct d; vm_compute; reflexivity.
Qed.
(** The same call on a url, and the text that is left. *)
Definition back (d : bool) (s : str) (q : question) : outcome str :=
  match make_url (plenty d) s with
  | Val u => match ask d q (view_of u) with
             | Val (Text t) => match writes q t with
                               | Some o => let (r, u') := run (plenty d) o u in match r with Val _ => encoded_url (view_of u') | Exn e => Exn e | Abort => Abort | _ => UB end
                               | None => UB
                               end
             | _ => UB
             end
  | _ => UB
  end.
Example C122_empty_is_gone : forall d,
  back d (L "http://u:@h:/a/?#") Q_encoded_query = Val (L "http://u:@h:/a/#") /\ back d (L "http://u:@h:/a/?#") Q_query_part = Val (L "http://u:@h:/a/?#") /\
  back d (L "http://u:@h:/a/?#") Q_port = Val (L "http://u:@h/a/?#") /\ back d (L "http://u:@h:/a/?#") Q_encoded_password = Val (L "http://u@h:/a/?#") /\
  back d (L "http:///a/") Q_encoded_host = Val (L "http:/a/") /\ back d (L "http://@h/") Q_userinfo_part = Val (L "http://h/").
Proof. intros d. destruct d; vm_compute; auto 10. Qed.
Example C122_refused_holds : forall d,
  back d (L "//u::x@h") Q_encoded_password = Exn invalid_part /\ back d (L "//h/a") Q_origin = Exn invalid_part.
Proof. intros d. destruct d; vm_compute; auto. Qed.
