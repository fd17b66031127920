(** * SpecSend: a URL composed by one program and read by another *)

From Verif Require Import Base ModelChar ModelParts ModelParse ModelView ModelUrl SpecChar SpecGrammar SpecLink SpecView SpecStore SpecUrl SpecHistory SpecIter SpecSegments SpecLaws SpecCarry.

(** The sender:
    for(auto s : ss) it = u.segments().insert(it, s);
    u.set_encoded_query(q); u.set_fragment(f); *)
Definition compose (E : env) (p : seg_it) (ss : list str) (q f : str) : U unit :=
  bind (insert_loop E p ss) (fun _ =>
  bind (run E (Set_encoded_query q)) (fun _ =>
  run E (Set_fragment f))).

(** The receiver of the text [t], unless it has no memory for it, makes a url
    with the scheme and authority of [a], the decoded segments [ss] and
    parameters [ps], and the decoded fragment [f]. *)
Definition finds (E : env) (t : str) (a : uri) (ss : list str) (ps : list (str * str)) (f : str) : Prop :=
  make_url E t = Exn bad_alloc \/
  exists w, make_url E t = Val w /\
    scheme (dbg E) (view_of w) = Val (same (uri_scheme a)) /\
    encoded_authority (dbg E) (view_of w) = Val (opt recompose_authority (uri_authority a)) /\
    carries_segments (dbg E) (view_of w) (seg_parse_base (dbg E) (view_of w)) ss /\
    carries_params (dbg E) (view_of w) ps /\
    fragment (dbg E) (view_of w) = Val f.
