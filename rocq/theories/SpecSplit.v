(** * SpecSplit: the regular expression of RFC 3986, appendix B

    [ ^(([^:/?#]+):)?(//([^/?#]* ))?([^?#]* )(\?([^#]* ))?(#(.* ))? ]

    Written without reference to the model or to the grammar.  Every piece is
    greedy, and what follows it matches any rest, so there is no backtracking. *)

From Verif Require Import Base SpecChar SpecGrammar.

(** The longest prefix without the given characters, and the rest. *)
Fixpoint before (stop : str) (s : str) : str * str :=
  match s with
  | [] => ([], [])
  | c :: r => if one_of stop c then ([], s) else let (a, b) := before stop r in (c :: a, b)
  end.

(** (([^:/?#]+):)? *)
Definition split_scheme (s : str) : option str * str :=
  match before (L ":/?#") s with
  | (c :: a, ":"%char :: r) => (Some (c :: a), r)
  | _ => (None, s)
  end.
(** (//([^/?#]* ))? *)
Definition split_authority (s : str) : option str * str :=
  match s with
  | "/"%char :: "/"%char :: s' => let (a, r) := before (L "/?#") s' in (Some a, r)
  | _ => (None, s)
  end.
(** (\?([^#]* ))? *)
Definition split_query (s : str) : option str * str :=
  match s with
  | "?"%char :: s' => let (a, r) := before (L "#") s' in (Some a, r)
  | _ => (None, s)
  end.
(** (#(.* ))? *)
Definition split_fragment (s : str) : option str :=
  match s with "#"%char :: s' => Some s' | _ => None end.

(** The authority (RFC 3986 section 3.2): the userinfo ends with "@", the host
    is in brackets or ends before ":". *)
Definition split_userinfo (s : str) : option str * str :=
  match before (L "@") s with
  | (a, _ :: r) => (Some a, r)
  | (_, []) => (None, s)
  end.
Definition split_host (s : str) : str * str :=
  match s with
  | "["%char :: _ => let (a, r) := before (L "]") s in (a ++ firstn 1 r, skipn 1 r)
  | _ => before (L ":") s
  end.
Definition split_parts (s : str) : authority :=
  let (ui, s1) := split_userinfo s in
  let (h, s2) := split_host s1 in
  mk_authority ui h (match s2 with _ :: p => Some p | [] => None end).

Definition rfc_split (s : str) : uri :=
  let (sc, s1) := split_scheme s in
  let (au, s2) := split_authority s1 in
  let (p, s3) := before (L "?#") s2 in
  let (q, s4) := split_query s3 in
  mk_uri sc (option_map split_parts au) p q (split_fragment s4).

(** A path beginning with "/?" or "/#", without an authority. *)
Definition swallows (u : uri) : Prop :=
  uri_authority u = None /\ exists c r, uri_path u = "/"%char :: c :: r /\ (c = "?"%char \/ c = "#"%char).
