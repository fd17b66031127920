(** * PropertiesBuild: a build without assertions does what the build with them does *)

From Verif Require Import Base ModelChar ModelParse ModelParts ModelView ModelUrl SpecChar SpecGrammar SpecLink SpecView SpecStore SpecUrl SpecSetters SpecSegments SpecBuild ProofsBuild.

(** ** C85: assertions do nothing but stop the program *)

(** Whenever a call returns or throws in the build with assertions, it does so
    with the same result in the build without, for every view, iterator and url
    whatsoever, well formed or not. *)
Theorem C85_observers : forall v : view, observers_follow v.
Proof. exact observers_lemma. Qed.
Print Assumptions C85_observers.
(** [e]: the end of the path, as url_view and as url_base compute it. *)
Theorem C85_segments : forall (v : view) (e : nat), segments_follow v (fun d => seg_parse_to d v e).
Proof. exact segments_lemma. Qed.
Print Assumptions C85_segments.
Theorem C85_params : forall v : view, params_follow v.
Proof. exact params_lemma. Qed.
Print Assumptions C85_params.
Theorem C85_construction : forall (E : env) (s : str), follows (make_url (build true E) s) (make_url (build false E) s).
Proof. exact make_url_lemma. Qed.
Print Assumptions C85_construction.
(** Modifiers and segment edits leave the same url behind. *)
Theorem C85_modifiers :
  forall (E : env) (o : op) (u : url) (r : outcome unit) (u' : url),
    run (build true E) o u = (r, u') -> ends r = true -> run (build false E) o u = (r, u').
Proof. exact modifier_lemma. Qed.
Print Assumptions C85_modifiers.
Theorem C85_edits :
  forall (E : env) (e : edit) (u : url) (r : outcome seg_it) (u' : url),
    run_edit (build true E) e u = (r, u') -> ends r = true -> run_edit (build false E) e u = (r, u').
Proof. exact edit_lemma. Qed.
Print Assumptions C85_edits.
(** A program that no assertion stops behaves the same without assertions. *)
Theorem C85_programs :
  forall (l : list (env * action)) (u : url) (x : list (outcome (option seg_it)) * url),
    acts true l u = Some x -> acts false l u = Some x.
Proof. exact acts_lemma. Qed.
Print Assumptions C85_programs.
Example C85_example :
  let E := plenty true in
  exists rs w, acts true [(E, Modify (Set_encoded_url (L "http://a/b/c"))); (E, Edit (Insert_encoded 1 (L "x"))); (E, Modify (Set_port (L "y"))); (E, Modify (Set_scheme (L "ws")))] url0 = Some (rs, w) /\
    map ends rs = [true; true; true; true] /\ nth_error rs 2 <> Some (Val None) /\ encoded_url (view_of w) = Val (L "ws://a/b/x/c").
Proof. do 2 eexists. split; [vm_compute; reflexivity|]. repeat split; try reflexivity. discriminate. Qed.
(** The converse fails: set_user("") stops the build with assertions (C42), and
    returns in the other. *)
Example C85_example_converse :
  seen (url_after (plenty true) (L "//h") [Set_user []]) encoded_url = Abort /\
  seen (url_after (plenty false) (L "//h") [Set_user []]) encoded_url = Val (L "//h").
Proof. vm_compute. auto. Qed.
