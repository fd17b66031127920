(** * SpecGrammar: the RFC 3986 grammar, and the dialect the library accepts

    Written without reference to the model.  A URI reference is a record of
    components ([uri]), [recompose] writes it down (RFC 3986 section 5.3), and
    [wf D u] says that every component is in the grammar of dialect [D].
    [rfc3986] is the RFC; [accepted] is what the library implements.  The two
    records differ in exactly four places. *)

From Verif Require Import Base SpecChar.

(** ** Components *)

Record authority := mk_authority {
  au_userinfo : option str;
  au_host : str;
  au_port : option str
}.
Record uri := mk_uri {
  uri_scheme : option str;
  uri_authority : option authority;
  uri_path : str;
  uri_query : option str;
  uri_fragment : option str
}.

(** Text of an optional component. *)
Definition opt {A} (f : A -> str) (o : option A) : str :=
  match o with Some a => f a | None => [] end.

Definition recompose_authority (a : authority) : str :=
  opt (fun u => u ++ L "@") (au_userinfo a) ++ au_host a ++ opt (cons ":"%char) (au_port a).

(** RFC 3986 section 5.3 *)
Definition recompose (u : uri) : str :=
  opt (fun s => s ++ L ":") (uri_scheme u) ++
  opt (fun a => L "//" ++ recompose_authority a) (uri_authority u) ++
  uri_path u ++
  opt (cons "?"%char) (uri_query u) ++
  opt (cons "#"%char) (uri_fragment u).

(** ** IP addresses (RFC 3986 section 3.2.2) *)

(** dec-octet *)
Definition dec_octet (s : str) : bool :=
  match s with
  | [a] => DIGIT a
  | [a; b] => in_range 49 57 a && DIGIT b
  | [a; b; c] =>
      (Ascii.eqb a "1" && DIGIT b && DIGIT c)
      || (Ascii.eqb a "2" && in_range 48 52 b && DIGIT c)
      || (Ascii.eqb a "2" && Ascii.eqb b "5" && in_range 48 53 c)
  | _ => false
  end.
(** "." dec-octet "." dec-octet "." dec-octet *)
Definition three_octets (s : str) : Prop :=
  exists b c d, dec_octet b = true /\ dec_octet c = true /\ dec_octet d = true /\
    s = L "." ++ b ++ L "." ++ c ++ L "." ++ d.
(** IPv4address *)
Definition ipv4_address (s : str) : Prop :=
  exists a r, dec_octet a = true /\ three_octets r /\ s = a ++ r.

(** 1*4HEXDIG *)
Definition h16 (hex : char -> bool) (s : str) : Prop :=
  1 <= length s <= 4 /\ forallb hex s = true.
(** n( h16 ":" ) *)
Fixpoint h16_colons (hex : char -> bool) (n : nat) (s : str) : Prop :=
  match n with
  | O => s = []
  | S m => exists w r, h16 hex w /\ h16_colons hex m r /\ s = w ++ L ":" ++ r
  end.
(** ls32 = ( h16 ":" h16 ) / IPv4address *)
Definition ls32 (hex : char -> bool) (v4 : str -> Prop) (s : str) : Prop :=
  (exists w x, h16 hex w /\ h16 hex x /\ s = w ++ L ":" ++ x) \/ v4 s.
(** n( h16 ":" ) ls32 *)
Definition h16s_ls32 (hex : char -> bool) (v4 : str -> Prop) (n : nat) (s : str) : Prop :=
  exists a b, h16_colons hex n a /\ ls32 hex v4 b /\ s = a ++ b.
(** [ *(m-1)( h16 ":" ) h16 ]: at most [m] words *)
Definition upto_h16 (hex : char -> bool) (m : nat) (s : str) : Prop :=
  s = [] \/ exists k a w, k < m /\ h16_colons hex k a /\ h16 hex w /\ s = a ++ w.
(** IPv6address, the nine rows of the RFC:
    6( h16 ":" ) ls32;
    [ *(m-1)( h16 ":" ) h16 ] "::" (5-m)( h16 ":" ) ls32 for m = 0..5;
    [ *5( h16 ":" ) h16 ] "::" h16;
    [ *6( h16 ":" ) h16 ] "::" *)
Definition ipv6_address (hex : char -> bool) (v4 : str -> Prop) (s : str) : Prop :=
  h16s_ls32 hex v4 6 s
  \/ (exists m l r, m <= 5 /\ upto_h16 hex m l /\ h16s_ls32 hex v4 (5 - m) r /\
        s = l ++ L "::" ++ r)
  \/ (exists l r, upto_h16 hex 6 l /\ h16 hex r /\ s = l ++ L "::" ++ r)
  \/ (exists l, upto_h16 hex 7 l /\ s = l ++ L "::").

(** IPvFuture = "v" 1*HEXDIG "." 1*( unreserved / sub-delims / ":" ) *)
Definition ipvfuture (s : str) : Prop :=
  exists v h t, (v = "v"%char \/ v = "V"%char) /\ h <> [] /\ forallb HEXDIG h = true /\
    t <> [] /\ forallb (fun c => unreserved c || sub_delim c || Ascii.eqb c ":") t = true /\
    s = v :: h ++ L "." ++ t.

(** ** Paths (RFC 3986 section 3.3), given the digits allowed in escapes *)

(** *( pchar / "/" ) *)
Definition path_text (hex : char -> bool) (s : str) : Prop :=
  pct_text hex (fun c => allowed k_pchar c || Ascii.eqb c "/") s.
(** path-abempty *)
Definition path_abempty (hex : char -> bool) (s : str) : Prop :=
  path_text hex s /\ (s = [] \/ exists r, s = "/"%char :: r).
(** path-absolute: begins with "/" but not with "//" *)
Definition path_absolute (hex : char -> bool) (s : str) : Prop :=
  path_text hex s /\ exists r, s = "/"%char :: r /\ forall r', r <> "/"%char :: r'.
(** path-rootless: begins with a segment *)
Definition path_rootless (hex : char -> bool) (s : str) : Prop :=
  path_text hex s /\ s <> [] /\ forall r, s <> "/"%char :: r.
(** path-noscheme: begins with a segment without colon *)
Definition path_noscheme (hex : char -> bool) (s : str) : Prop :=
  path_rootless hex s /\ forall a b, s = a ++ ":"%char :: b -> In "/"%char a.

(** ** Dialects *)

Record dialect := mk_dialect {
  hexdig : char -> bool;                  (* digits of an escape *)
  scheme_char : char -> bool;             (* after the first letter of a scheme *)
  ip_literal : str -> Prop;               (* text between brackets *)
  (* path beginning with "/" when there is no authority; also given: is it
     followed by a query or fragment? *)
  absolute_path : str -> bool -> Prop
}.

Definition text (D : dialect) (k : comp) (s : str) : Prop := pct_text (hexdig D) (allowed k) s.

Definition wf_scheme (D : dialect) (s : str) : Prop :=
  exists c r, s = c :: r /\ ALPHA c = true /\ forallb (scheme_char D) r = true.
Definition wf_host (D : dialect) (h : str) : Prop :=
  text D k_reg_name h \/ exists t, ip_literal D t /\ h = L "[" ++ t ++ L "]".
Definition wf_authority (D : dialect) (a : authority) : Prop :=
  (forall u, au_userinfo a = Some u -> text D k_userinfo u) /\
  wf_host D (au_host a) /\
  (forall p, au_port a = Some p -> forallb DIGIT p = true).

Definition is_some {A} (o : option A) : bool := match o with Some _ => true | None => false end.
Definition has_tail (u : uri) : bool := is_some (uri_query u) || is_some (uri_fragment u).

Definition wf_path (D : dialect) (u : uri) : Prop :=
  match uri_authority u with
  | Some _ => path_abempty (hexdig D) (uri_path u)
  | None =>
      uri_path u = []
      \/ absolute_path D (uri_path u) (has_tail u)
      \/ match uri_scheme u with
         | Some _ => path_rootless (hexdig D) (uri_path u)
         | None => path_noscheme (hexdig D) (uri_path u)
         end
  end.

Definition wf (D : dialect) (u : uri) : Prop :=
  (forall s, uri_scheme u = Some s -> wf_scheme D s) /\
  (forall a, uri_authority u = Some a -> wf_authority D a) /\
  wf_path D u /\
  (forall q, uri_query u = Some q -> text D k_query q) /\
  (forall f, uri_fragment u = Some f -> text D k_fragment f).

(** RFC 3986 URI-reference. *)
Definition rfc3986 : dialect := mk_dialect
  HEXDIG
  (fun c => ALPHA c || DIGIT c || one_of (L "+-.") c)
  (fun t => ipv6_address HEXDIG ipv4_address t \/ ipvfuture t)
  (fun p _ => path_absolute HEXDIG p).

(** *** The library's dialect *)

(** First octet of an IPv4 address inside IPv6: up to four digits, leading
    zeros allowed. *)
Definition lax_octet (s : str) : Prop :=
  1 <= length s <= 4 /\ forallb DIGIT s = true /\ (dec_value s <= 255)%N.
Definition lax_ipv4 (s : str) : Prop :=
  exists a r, lax_octet a /\ three_octets r /\ s = a ++ r.
(** "::" directly followed by ".b.c.d"; the word before "::", if any, must look
    like an octet. *)
Definition dangling_ipv4 (s : str) : Prop :=
  exists l t, three_octets t /\ s = l ++ L "::" ++ t /\
    (l = [] \/ exists k a w, k < 6 /\ h16_colons HEXDIG_UPPER k a /\ lax_octet w /\ l = a ++ w).

(** "/" alone must end the URL; otherwise the character after "/" can be
    anything but "/". *)
Definition lax_absolute (s : str) (tail : bool) : Prop :=
  (s = L "/" /\ tail = false)
  \/ exists c r, s = "/"%char :: c :: r /\ c <> "/"%char /\ path_text HEXDIG_UPPER r.

Definition accepted : dialect := mk_dialect
  HEXDIG_UPPER
  (fun c => ALPHA c || one_of (L "+-.") c)
  (fun t => ipv6_address HEXDIG_UPPER lax_ipv4 t \/ dangling_ipv4 t)
  lax_absolute.

(** What both agree on: RFC 3986 with upper case escapes and IPv6 digits, no
    digits in schemes, no IPvFuture, and no path "/" directly before "?" or "#"
    when there is no authority. *)
Definition common : dialect := mk_dialect
  HEXDIG_UPPER
  (fun c => ALPHA c || one_of (L "+-.") c)
  (fun t => ipv6_address HEXDIG_UPPER ipv4_address t)
  (fun p tail => path_absolute HEXDIG_UPPER p /\ (p = L "/" -> tail = false)).

(** ** Derived notions *)

(** The user is the userinfo up to the first colon, the password what follows
    that colon. *)
Fixpoint split_at (c : char) (s : str) : str * option str :=
  match s with
  | [] => ([], None)
  | x :: r => if Ascii.eqb x c then ([], Some r)
              else let '(a, b) := split_at c r in (x :: a, b)
  end.
Definition user_of (userinfo : str) : str := fst (split_at ":" userinfo).
Definition password_of (userinfo : str) : option str := snd (split_at ":" userinfo).

(** All pieces between occurrences of a separator; never the empty list. *)
Fixpoint split_all (c : char) (s : str) : list str :=
  match s with
  | [] => [[]]
  | x :: r =>
      if Ascii.eqb x c then [] :: split_all c r
      else match split_all c r with
           | p :: ps => (x :: p) :: ps
           | [] => [[x]]
           end
  end.

(** The segments of a path: the empty path has none; a leading "/" only
    introduces the first segment. *)
Definition segments_of (path : str) : list str :=
  match path with
  | [] => []
  | c :: r => if Ascii.eqb c "/" then split_all "/" r else split_all "/" path
  end.

(** Query parameters in the usual sense: pieces between "&", each split at its
    first "=". *)
Definition form_params (query : str) : list (str * option str) :=
  map (split_at "=") (split_all "&" query).

(** Query parameters as the library delimits them: a key extends to the next
    "=" (even across "&"), a value to the next "&". *)
Fixpoint lib_params_from (in_key : bool) (key acc : str) (q : str) : list (str * option str) :=
  match q with
  | [] => [if in_key then (rev acc, None) else (key, Some (rev acc))]
  | c :: r =>
      if in_key then
        if Ascii.eqb c "=" then lib_params_from false (rev acc) [] r
        else lib_params_from true [] (c :: acc) r
      else
        if Ascii.eqb c "&" then (key, Some (rev acc)) :: lib_params_from true [] [] r
        else lib_params_from false key (c :: acc) r
  end.
Definition lib_params (q : str) : list (str * option str) := lib_params_from true [] [] q.

(** The eight parts of a URL with their delimiters, in order: scheme ":",
    "//" user, ":" password "@", host, ":" port, path, "?" query, "#" fragment. *)
Definition part_texts (u : uri) : list str :=
  [ opt (fun s => s ++ L ":") (uri_scheme u);
    opt (fun a => L "//" ++ opt user_of (au_userinfo a)) (uri_authority u);
    opt (fun a => opt (fun ui => opt (cons ":"%char) (password_of ui) ++ L "@") (au_userinfo a))
        (uri_authority u);
    opt au_host (uri_authority u);
    opt (fun a => opt (cons ":"%char) (au_port a)) (uri_authority u);
    uri_path u;
    opt (cons "?"%char) (uri_query u);
    opt (cons "#"%char) (uri_fragment u) ].
