(** * SpecInject: what others read in the text of a url *)

From Verif Require Import Base ModelChar ModelParts ModelView ModelUrl SpecChar SpecGrammar SpecLink SpecView SpecStore SpecUrl SpecHistory SpecSegments SpecSplit.

(** The path cannot be mistaken for something else: it ends before the query and
    the fragment; behind an authority it is empty or begins with "/"; without
    authority it does not begin with "//"; and without scheme it begins with a
    colon or has none in the first segment. *)
Definition path_stands_out (a : uri) : Prop :=
  (forall c, In c (uri_path a) -> c <> "?"%char /\ c <> "#"%char) /\
  match uri_authority a with
  | Some _ => uri_path a = [] \/ exists r, uri_path a = "/"%char :: r
  | None => (forall r, uri_path a <> "/"%char :: "/"%char :: r) /\
            (uri_scheme a = None -> (exists r, uri_path a = ":"%char :: r) \/ forall x y, uri_path a = x ++ ":"%char :: y -> In "/"%char x)
  end.

(** The components that [o] does not name are the same. *)
Record same_except (o : op) (a b : uri) : Prop := {
  se_scheme : touches_scheme o = false -> uri_scheme b = uri_scheme a;
  se_user : touches_user o = false -> the_user b = the_user a;
  se_password : touches_password o = false -> the_password b = the_password a;
  se_host : touches_host o = false -> the_host b = the_host a;
  se_port : touches_port o = false -> the_port b = the_port a;
  se_path : touches_path o = false -> uri_path b = uri_path a;
  se_query : touches_query o = false -> uri_query b = uri_query a;
  se_fragment : touches_fragment o = false -> uri_fragment b = uri_fragment a
}.

(** The setters of plain text with a text. *)
Definition plain_text (o : op) : Prop :=
  match o with Set_user s | Set_password s | Set_host s | Set_query s | Set_fragment s => s <> [] | _ => False end.
(** The component that the call names decodes to its argument. *)
Definition carries (o : op) (b : uri) : Prop :=
  match o with
  | Set_user s => decodes (the_user b) s
  | Set_password s => exists p, the_password b = Some p /\ decodes p s
  | Set_host s => decodes (the_host b) s
  | Set_query s => exists q, uri_query b = Some q /\ decodes q s
  | Set_fragment s => exists f, uri_fragment b = Some f /\ decodes f s
  | _ => False
  end.
(** If the call adds an authority, the path can follow it. *)
Definition path_can_follow (o : op) (a : uri) : Prop :=
  match o with
  | Set_user _ | Set_password _ | Set_host _ => uri_authority a <> None \/ uri_path a = [] \/ exists r, uri_path a = "/"%char :: r
  | _ => True
  end.
(** The segments, written without an authority, begin with "//". *)
Definition double_slash (a : uri) (ss : list str) : Prop :=
  uri_authority a = None /\ rooted (uri_path a) = true /\ exists s r, ss = [] :: s :: r.
