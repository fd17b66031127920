(** * SpecProgram: programs that use urls

    A complete description of urls, for programs that only use their public
    functions: a [desc] for every url, and what every function does to it.  Nothing
    here depends on how the library stores a url.  A program [prog] may use any
    number of urls and choose every call by the answers to all calls before. *)

From Verif Require Import Base ModelChar ModelParts ModelView ModelUrl ModelUrls SpecChar SpecGrammar SpecLink SpecView SpecStore SpecUrl SpecHistory
  SpecIter SpecSegments SpecHeld SpecMixed SpecStale.

(** ** Functions and answers *)

(** What can be asked.  [Q_segments], [Q_params]: iterating from begin() to end(). *)
Inductive question :=
| Q_url | Q_origin | Q_scheme | Q_has_authority | Q_authority | Q_has_userinfo | Q_userinfo | Q_userinfo_part
| Q_encoded_user | Q_user | Q_encoded_password | Q_password | Q_host_and_port | Q_encoded_host | Q_host | Q_host_type | Q_port | Q_port_part
| Q_path | Q_encoded_query | Q_query | Q_query_part | Q_encoded_fragment | Q_fragment | Q_fragment_part
| Q_segments_size | Q_segments | Q_params_size | Q_params
| Q_contains (key : str) | Q_count (key : str) | Q_index (key : str) | Q_at (key : str).

(** [New s]: the url is destroyed and constructed again from [s] (the default
    constructor for the empty string; if the constructor throws, the old url
    stays).  [Call o]: a modifier.  [Edit e]: an edit of the segments, with the
    iterators at positions counted from begin(). *)
Inductive action :=
| New (s : str)
| Call (o : op)
| Edit (e : edit)
| Ask (q : question).

Inductive answer :=
| Done
| Text (s : str)
| Truth (b : bool)
| Number (n : nat)
| Kind (h : host_type)
| Texts (l : list str)
| Pairs (l : list (str * str))
| Error (e : exn).

(** ** The library *)

(** The loops need fuel in the model; if it does not suffice, the model says
    [Hang]. *)
Definition ask (d : bool) (q : question) (v : view) : outcome answer :=
  let fuel := 2 + size v in
  match q with
  | Q_url => omap Text (encoded_url v)
  | Q_origin => omap Text (encoded_origin v)
  | Q_scheme => omap Text (scheme d v)
  | Q_has_authority => Val (Truth (has_authority v))
  | Q_authority => omap Text (encoded_authority d v)
  | Q_has_userinfo => omap Truth (has_userinfo_base d v)
  | Q_userinfo => omap Text (encoded_userinfo_base d v)
  | Q_userinfo_part => omap Text (userinfo_part d v)
  | Q_encoded_user => omap Text (encoded_user d v)
  | Q_user => omap Text (user d v)
  | Q_encoded_password => omap Text (encoded_password_base d v)
  | Q_password => omap Text (password_base d v)
  | Q_host_and_port => omap Text (encoded_host_and_port v)
  | Q_encoded_host => omap Text (encoded_host v)
  | Q_host => omap Text (get_host v)
  | Q_host_type => Val (Kind (get_host_type v))
  | Q_port => omap Text (port d v)
  | Q_port_part => omap Text (port_part d v)
  | Q_path => omap Text (encoded_path v)
  | Q_encoded_query => omap Text (encoded_query d v)
  | Q_query => omap Text (query d v)
  | Q_query_part => omap Text (query_part d v)
  | Q_encoded_fragment => omap Text (encoded_fragment d v)
  | Q_fragment => omap Text (fragment d v)
  | Q_fragment_part => omap Text (fragment_part d v)
  | Q_segments_size => Val (Number (segments_size v))
  | Q_segments => omap Texts (seg_all d v (seg_parse_base d v) fuel)
  | Q_params_size => Val (Number (params_size v))
  | Q_params => omap Pairs (par_all d v fuel)
  | Q_contains key => omap Truth (contains d v fuel key)
  | Q_count key => omap Number (count d v fuel key)
  | Q_index key => omap Text (index d v fuel key)
  | Q_at key => omap Text (at_ d v fuel key)
  end.

Definition perform (E : env) (c : action) (u : url) : outcome answer * url :=
  match c with
  | New s => match make_url E s with Val u' => (Val Done, u') | r => (omap (fun _ => Done) r, u) end
  | Call o => let (r, u') := run E o u in (omap (fun _ => Done) r, u')
  | Edit e => let (r, u') := run_edit E e u in (omap (fun _ => Done) r, u')
  | Ask q => (ask (dbg E) q (view_of u), u)
  end.

(** [Stop r]: the program ends with the result [r].  [Do x c k]: the function [c]
    of url number [x]; [k] is the rest of the program, for every answer. *)
Inductive prog :=
| Stop (r : str)
| Do (x : nat) (c : action) (k : answer -> prog).

Definition event : Type := nat * action * answer.
(** [Crashed]: an assertion, undefined behaviour, or a loop without end. *)
Inductive ending := Returned (r : str) | Crashed.

(** [exec Es n p h]: the program [p] is run on the urls [h]; its calls, from
    number [n] on, have the environments [Es n], [Es (S n)], ... *)
Fixpoint exec (Es : nat -> env) (n : nat) (p : prog) (h : urls) : list event * ending * urls :=
  match p with
  | Stop r => ([], Returned r, h)
  | Do x c k =>
      let go a u := let '(t, e, h') := exec Es (S n) (k a) (put x u h) in ((x, c, a) :: t, e, h') in
      match perform (Es n) c (h x) with
      | (Val a, u) => go a u
      | (Exn e, u) => go (Error e) u
      | (_, u) => ([], Crashed, put x u h)
      end
  end.

(** ** The description *)

(** Components, the two counters, the host type; whether a zero byte is known to
    follow the text; and the storage's own size, which matters with assertions
    only. *)
Record desc := mk_desc { c_uri : uri; c_segs : nat; c_pars : nat; c_host : host_type; c_nul : bool; c_size : nat }.
Definition descs := nat -> desc.
Definition change (x : nat) (c : desc) (s : descs) : descs := fun y => if y =? x then c else s y.

(** A default-constructed url. *)
Definition desc0 : desc := mk_desc empty_uri 0 0 host_none false 0.
(** A url that was parsed from the text with components [a], of type [h]. *)
Definition param_count (a : uri) : nat := match uri_query a with Some q => length (lib_params q) | None => 0 end.
Definition parsed_desc (a : uri) (h : host_type) : desc :=
  mk_desc a (length (the_segments a)) (param_count a) h true (length (recompose a)).
(** After the modifier [o], which made [a] of the components; [h] is the type of
    the new host if [o] looks at it. *)
Definition size_after (o : op) (c : desc) (a : uri) : nat :=
  if replaces o then length (recompose a)
  else if grows_and_shrinks o (c_uri c) then length (recompose a) + 2
  else if length (recompose (c_uri c)) <? length (recompose a) then length (recompose a) else c_size c.
Definition called_desc (o : op) (c : desc) (a : uri) (h : host_type) : desc :=
  if replaces o then parsed_desc a h
  else mk_desc a (c_segs c) (c_pars c) (if sets_host o then h else c_host c) (c_nul c) (size_after o c a).
(** After an edit. *)
Definition edited_desc (e : edit) (c : desc) : desc :=
  let ss := list_edit e (the_segments (c_uri c)) in
  let a := with_segments ss (c_uri c) in
  mk_desc a (length ss) (c_pars c) (c_host c) (c_nul c) (length (recompose a)).

(** [replies c q r]: [r] is the answer to [q].  [decodes s t] is percent-decoding;
    [listed]: nothing if the counter is zero, otherwise everything. *)
Definition decoded_text (s : str) (r : answer) : Prop := exists t, decodes s t /\ r = Text t.
Definition replies (c : desc) (q : question) (r : answer) : Prop :=
  let a := c_uri c in
  let looks f := exists ds, decoded_params (listed (c_pars c) (params_of a)) ds /\ r = f ds in
  match q with
  | Q_url => r = Text (recompose a)
  | Q_origin => r = Text (opt (fun s => s ++ L ":") (uri_scheme a) ++ opt (fun x => L "//" ++ recompose_authority x) (uri_authority a))
  | Q_scheme => r = Text (same (uri_scheme a))
  | Q_has_authority => r = Truth (is_some (uri_authority a))
  | Q_authority => r = Text (opt recompose_authority (uri_authority a))
  | Q_has_userinfo => r = Truth (is_some (the_userinfo a))
  | Q_userinfo => r = Text (same (the_userinfo a))
  | Q_userinfo_part => r = Text (opt (fun s => s ++ L "@") (the_userinfo a))
  | Q_encoded_user => r = Text (the_user a)
  | Q_user => decoded_text (the_user a) r
  | Q_encoded_password => r = Text (same (the_password a))
  | Q_password => decoded_text (same (the_password a)) r
  | Q_host_and_port => r = Text (the_host a ++ opt (cons ":"%char) (the_port a))
  | Q_encoded_host => r = Text (the_host a)
  | Q_host => match c_host c with host_name => decoded_text (the_host a) r | _ => r = Text (the_host a) end
  | Q_host_type => r = Kind (c_host c)
  | Q_port => r = Text (same (the_port a))
  | Q_port_part => r = Text (opt (cons ":"%char) (the_port a))
  | Q_path => r = Text (uri_path a)
  | Q_encoded_query => r = Text (same (uri_query a))
  | Q_query => decoded_text (same (uri_query a)) r
  | Q_query_part => r = Text (opt (cons "?"%char) (uri_query a))
  | Q_encoded_fragment => r = Text (same (uri_fragment a))
  | Q_fragment => decoded_text (same (uri_fragment a)) r
  | Q_fragment_part => r = Text (opt (cons "#"%char) (uri_fragment a))
  | Q_segments_size => r = Number (c_segs c)
  | Q_segments => r = Texts (listed (c_segs c) (the_segments a))
  | Q_params_size => r = Number (c_pars c)
  | Q_params => r = Pairs (listed (c_pars c) (params_of a))
  | Q_contains key => looks (fun ds => Truth (match lookup key ds with Some _ => true | None => false end))
  | Q_count key => looks (fun ds => Number (occurrences key ds))
  | Q_index key => looks (fun ds => Text (match lookup key ds with Some x => x | None => [] end))
  | Q_at key => looks (fun ds => match lookup key ds with Some x => Text x | None => Error out_of_range end)
  end.

(** [allows c f r c']: the function [f] may answer [r] and leave [c'].  Everything
    is determined, except that memory may run out. *)
Inductive allows (c : desc) : action -> answer -> desc -> Prop :=
| new_empty : allows c (New []) Done desc0
| new_parsed a h : wf accepted a -> recompose a <> [] -> host_class (the_host a) h -> allows c (New (recompose a)) Done (parsed_desc a h)
| new_no_room a : wf accepted a -> recompose a <> [] -> allows c (New (recompose a)) (Error bad_alloc) c
| new_rejected s : (forall a, wf accepted a -> recompose a <> s) -> allows c (New s) (Error invalid_part) c
| call_done o a h : step o (c_uri c) a -> (sets_host o = true -> host_class (the_host a) h) -> allows c (Call o) Done (called_desc o c a h)
| call_no_room o a e : step o (c_uri c) a -> no_room e -> allows c (Call o) (Error e) c
| call_rejected o : (forall a, ~ step o (c_uri c) a) -> allows c (Call o) (Error invalid_part) c
| edit_done e : text_valid e -> allows c (Edit e) Done (edited_desc e c)
| edit_no_room e : text_valid e -> allows c (Edit e) (Error bad_alloc) c
| edit_rejected e : ~ text_valid e -> allows c (Edit e) (Error invalid_part) c
| asked q r : replies c q r -> allows c (Ask q) r c.

(** [may s p t r s']: the program [p] may run from [s] with the events [t] to the
    result [r] and [s']. *)
Inductive may : descs -> prog -> list event -> str -> descs -> Prop :=
| may_stop s r : may s (Stop r) [] r s
| may_do s x f k a c t r s' :
    allows (s x) f a c -> may (change x c s) (k a) t r s' -> may s (Do x f k) ((x, f, a) :: t) r s'.

(** ** What a program must not do *)

(** [permitted d c f] ([d]: assertions enabled).  A modifier must not be one of
    the damaging calls (C60).  An edit needs a right counter of segments, positions
    that exist, and not the first of a relative path; with assertions, also a
    storage size that agrees, and not the end of a path without a query.  Iterating
    needs a zero byte (segments), or an [iterable] query (parameters). *)
Definition permitted (d : bool) (c : desc) (f : action) : Prop :=
  let a := c_uri c in
  match f with
  | New _ => True
  | Call o => arg_ok o /\ ~ misbehaves d o a
  | Edit e => c_nul c = true /\ c_segs c = length (the_segments a) /\ in_range e a /\ ~ asserts d e a /\ (d = true -> c_size c = length (recompose a))
  | Ask Q_segments => c_nul c = true /\ (d = true -> ~ (c_segs c <> 0 /\ uri_path a = [] /\ uri_query a = None))
  | Ask (Q_params | Q_contains _ | Q_count _ | Q_index _ | Q_at _) => iterable a /\ (d = true -> ~ (c_pars c <> 0 /\ uri_query a = None))
  | Ask _ => True
  end.
(** Every call of the program is permitted, whatever the answers. *)
Fixpoint careful (d : bool) (s : descs) (p : prog) : Prop :=
  match p with
  | Stop _ => True
  | Do x f k => permitted d (s x) f /\ forall a c, allows (s x) f a c -> careful d (change x c s) (k a)
  end.

(** The url [u] is described by [c]. *)
Record stands (d : bool) (u : url) (c : desc) : Prop := {
  sd_rep : rep (part_texts (c_uri c)) u;
  sd_wf : wf_components (c_uri c);
  sd_segs : nseg (u_pt u) = c_segs c;
  sd_pars : nparam (u_pt u) = c_pars c;
  sd_host : host (u_pt u) = c_host c;
  sd_nul : c_nul c = true -> terminated u;
  sd_size : d = true -> st_size (u_st u) = c_size c
}.

(** The events in which memory ran out. *)
Definition out_of_room (v : event) : Prop := match v with (_, _, Error (bad_alloc | too_large)) => True | _ => False end.
