(** * SpecCarry: writing lists of strings into the text of a URL *)

From Verif Require Import Base ModelView ModelElems SpecChar SpecGrammar SpecIter.

(** [written ok e s]: [e] is a way to write the bytes [s]: characters that
    satisfy [ok] for themselves, and upper case escapes. *)
Definition written (ok : char -> bool) (e s : str) : Prop := pct_text HEXDIG_UPPER ok e /\ decodes e s.

(** Characters that need not be escaped in a segment, a key and a value. *)
Definition seg_char (c : char) : bool := allowed k_pchar c.
Definition key_char (c : char) : bool := allowed k_query c && negb (Ascii.eqb c "&") && negb (Ascii.eqb c "=").
Definition val_char (c : char) : bool := allowed k_query c && negb (Ascii.eqb c "&").

(** One way to write: escape exactly the other characters. *)
Definition write (ok : char -> bool) (s : str) : str := flat_map (fun c => if ok c then [c] else escape c) s.

(** "/" before every segment; "&" between parameters, "=" between key and value. *)
Definition path_from (es : list str) : str := concat (map (cons "/"%char) es).
Definition pair_from (p : str * str) : str := fst p ++ "="%char :: snd p.
Definition query_from (ps : list (str * str)) : option str :=
  match ps with
  | [] => None
  | p :: r => Some (pair_from p ++ concat (map (fun x => "&"%char :: pair_from x) r))
  end.

(** A URL with these segments and parameters. *)
Definition carrying (scheme : option str) (au : authority) (es : list str) (eps : list (str * str)) (frag : option str) : uri :=
  mk_uri scheme (Some au) (path_from es) (query_from eps) frag.

(** The rest of it is in order. *)
Definition good_frame (scheme : option str) (au : authority) (frag : option str) : Prop :=
  (forall s, scheme = Some s -> wf_scheme accepted s) /\ wf_authority accepted au /\
  (forall f, frag = Some f -> text accepted k_fragment f).

(** [es] writes the segments [ss], [eps] the parameters [ps]. *)
Definition written_segments (es ss : list str) : Prop := Forall2 (written seg_char) es ss.
Definition written_params (eps ps : list (str * str)) : Prop :=
  Forall2 (fun e p => written key_char (fst e) (fst p) /\ written val_char (snd e) (snd p)) eps ps.

(** [carries_segments d v parse ss]: the range of segments of [v] lists [ss],
    percent-decoded, in both directions.  [parse] is the function by which the
    iterators find a segment: [seg_parse_base d v] for a url,
    [seg_parse_view d v] for a url_view or a const url. *)
Definition carries_segments (d : bool) (v : view) (parse : nat -> outcome seg_it) (ss : list str) : Prop :=
  bidirectional (seg_begin v parse) (seg_end v parse) (seg_incr d v parse) (seg_decr d v parse) (seg_string v) (seg_eq d) ss.

(** [carries_params d v ps]: [v] lists the parameters [ps], percent-decoded, and
    finds every parameter.  The loops of the lookups need fuel in the model; any
    amount above the number of parameters will do. *)
Definition carries_params (d : bool) (v : view) (ps : list (str * str)) : Prop :=
  (exists pos, positions (par_begin d v) (par_end d v) (par_incr d v) (par_strings d v) (par_eq d) ps pos) /\
  forall fuel key, length ps < fuel ->
    contains d v fuel key = Val (match lookup key ps with Some _ => true | None => false end) /\
    count d v fuel key = Val (occurrences key ps) /\
    index d v fuel key = Val (match lookup key ps with Some x => x | None => [] end) /\
    at_ d v fuel key = match lookup key ps with Some x => Val x | None => Exn out_of_range end.
