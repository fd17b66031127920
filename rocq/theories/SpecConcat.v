(** * SpecConcat: text appended to the text of a URL *)

From Verif Require Import Base ModelView SpecChar SpecGrammar SpecView.

(** [views d s a]: the text [s] is accepted, with the components [a]. *)
Definition views (d : bool) (s : str) (a : uri) : Prop := exists v, make_url_view d s = Val v /\ shows d v a.

(** A URL that is the path "/", possibly after a scheme. *)
Definition bare_root (s : str) : Prop :=
  s = L "/" \/ exists sc, wf_scheme accepted sc /\ s = sc ++ L ":/".
