(** * SpecTexts: programs that hold string_views

    Programs as in SpecProgram, which in addition have any number of variables of
    type [string_view].  Such a variable refers to a text of the program, or to
    characters of a url; it can be read, cut, and passed to the modifiers and
    segment edits of any url, also of the url it refers to. *)

From Verif Require Import Base ModelChar ModelParts ModelView ModelUrl ModelUrls ModelAlias ModelPieces SpecChar SpecGrammar SpecLink SpecView SpecStore SpecUrl SpecHistory
  SpecIter SpecSegments SpecHeld SpecMixed SpecStale SpecAlias SpecProgram SpecHolder.

(** ** Functions *)

(** The modifier [o] and the edit [e] with the text [s]. *)
Definition with_text (o : op) (s : str) : op :=
  match o with
  | Set_encoded_url _ => Set_encoded_url s | Set_encoded_origin _ => Set_encoded_origin s | Set_scheme _ => Set_scheme s
  | Set_encoded_authority _ => Set_encoded_authority s | Set_encoded_userinfo _ => Set_encoded_userinfo s | Set_userinfo_part _ => Set_userinfo_part s
  | Set_user _ => Set_user s | Set_encoded_user _ => Set_encoded_user s | Set_password _ => Set_password s
  | Set_encoded_password _ => Set_encoded_password s | Set_password_part _ => Set_password_part s | Set_host _ => Set_host s
  | Set_encoded_host _ => Set_encoded_host s | Set_port _ => Set_port s | Set_port_part _ => Set_port_part s
  | Set_encoded_path _ => Set_encoded_path s | Set_query _ => Set_query s | Set_encoded_query _ => Set_encoded_query s
  | Set_query_part _ => Set_query_part s | Set_fragment _ => Set_fragment s | Set_encoded_fragment _ => Set_encoded_fragment s
  | Set_fragment_part _ => Set_fragment_part s
  | Set_port_n _ | Normalize => o
  end.
Definition edit_text (e : edit) (s : str) : edit :=
  match e with
  | Insert_encoded i _ => Insert_encoded i s | Insert i _ => Insert i s | Replace_encoded i _ => Replace_encoded i s | Replace i _ => Replace i s
  | Erase _ | Erase_range _ _ => e
  end.

(** [i], [j]: variables; [x]: a url.  The text in [o] and [e] is replaced by the
    variable. *)
Inductive tmove :=
| TUse (x : nat) (f : action)         (* as in SpecProgram *)
| Part (i x : nat) (q : accessor)     (* i = x.encoded_host(), and so on *)
| Segment (i x k : nat)               (* i = the encoded string of x.segments().begin() + k *)
| Key (i x k : nat)                   (* i = the encoded key of x.params().begin() + k *)
| Value (i x k : nat)                 (* i = the encoded value of x.params().begin() + k *)
| Literal (i : nat) (s : str)         (* i = "..." *)
| TCopy (i j : nat)                   (* i = j *)
| Sub (i j p n : nat)                 (* i = j.substr(p, n) *)
| Show (i : nat)                      (* the characters of i *)
| Pass (x : nat) (o : op) (i : nat)   (* x.set_host(i), and so on *)
| PassEdit (x : nat) (e : edit) (i : nat) (* x.segments().insert(position, i), and so on *).

(** ** The library *)

(** A view: of a text [s]; or of [n] bytes at offset [o] of buffer number [g] of
    url [x], when it was constructed for the [b]th time. *)
Inductive tvar := Lit (s : str) | At (x b g o n : nat).
Record tstate := mk_tstate { t_urls : urls; t_born : nat -> nat; t_vars : nat -> tvar }.
Definition tstate0 : tstate := mk_tstate (fun _ => url0) (fun _ => 0) (fun _ => Lit []).
Definition set_var {I} (i : nat) (v : I) (g : nat -> I) : nat -> I := fun j => if j =? i then v else g j.

(** The characters; no character is read of an empty view. *)
Definition read_var (h : urls) (born : nat -> nat) (v : tvar) : outcome str :=
  match v with
  | Lit s => Val s
  | At x b g o n => if n =? 0 then Val [] else if b =? born x then fst (src_read (Own g o n) (h x)) else UB
  end.
(** As argument of a function of url [y], see ModelAlias.  (If it is a view of
    another url its characters are the same during the whole call.) *)
Definition source_for (h : urls) (born : nat -> nat) (y : nat) (v : tvar) : outcome source :=
  match v with
  | At x b g o n => if (x =? y) && (b =? born x) then Val (Own g o n) else omap Ext (read_var h born v)
  | Lit s => Val (Ext s)
  end.
Definition var_size (v : tvar) : nat := match v with Lit s => length s | At _ _ _ _ n => n end.
(** [substr(p, n)] for [p <= size()] *)
Definition sub_var (v : tvar) (p n : nat) : tvar :=
  match v with Lit s => Lit (firstn n (skipn p s)) | At x b g o m => At x b g (o + p) (Nat.min n (m - p)) end.

Definition tmake (E : env) (m : tmove) (w : tstate) : outcome answer * tstate :=
  let (h, born, g) := w in

  match m with
  | TUse x f =>
      let (r, u) := perform E f (h x) in
      let born' := match f, r with New _, Val _ => set_var x (S (born x)) born | _, _ => born end in
      (r, mk_tstate (put x u h) born' g)
  | Part i x q =>
      match piece (dbg E) (view_of (h x)) q with
      | Val (o, n) => (Val Done, mk_tstate h born (set_var i (At x (born x) (st_allocs (u_st (h x))) o n) g))
      | r => (omap (fun _ => Done) r, w)
      end
  | Segment i x k =>
      match obind (position (dbg E) (h x) k) (segment_piece (view_of (h x))) with
      | Val (o, n) => (Val Done, mk_tstate h born (set_var i (At x (born x) (st_allocs (u_st (h x))) o n) g))
      | r => (omap (fun _ => Done) r, w)
      end
  | Key i x k =>
      match obind (param_position (dbg E) (view_of (h x)) k) (key_piece (dbg E) (view_of (h x))) with
      | Val (o, n) => (Val Done, mk_tstate h born (set_var i (At x (born x) (st_allocs (u_st (h x))) o n) g))
      | r => (omap (fun _ => Done) r, w)
      end
  | Value i x k =>
      match obind (param_position (dbg E) (view_of (h x)) k) (value_piece (dbg E) (view_of (h x))) with
      | Val (Some (o, n)) => (Val Done, mk_tstate h born (set_var i (At x (born x) (st_allocs (u_st (h x))) o n) g))
      | Val None => (Val Done, mk_tstate h born (set_var i (Lit []) g))
      | r => (omap (fun _ => Done) r, w)
      end
  | Literal i s => (Val Done, mk_tstate h born (set_var i (Lit s) g))
  | TCopy i j => (Val Done, mk_tstate h born (set_var i (g j) g))
  | Sub i j p n =>
      if var_size (g j) <? p then (Exn out_of_range, w) else (Val Done, mk_tstate h born (set_var i (sub_var (g j) p n) g))
  | Show i => (omap Text (read_var h born (g i)), w)
  | Pass x o i =>
      match source_for h born x (g i) with
      | Val s => let (r, u) := run_from E o s (h x) in (omap (fun _ => Done) r, mk_tstate (put x u h) born g)
      | r => (omap (fun _ => Done) r, w)
      end
  | PassEdit x e i =>
      match source_for h born x (g i) with
      | Val s => let (r, u) := edit_from E e s (h x) in (omap (fun _ => Done) r, mk_tstate (put x u h) born g)
      | r => (omap (fun _ => Done) r, w)
      end
  end.

Inductive tprog :=
| TStop (r : str)
| TThen (m : tmove) (k : answer -> tprog).
Definition tevent : Type := tmove * answer.
Fixpoint texec (Es : nat -> env) (n : nat) (p : tprog) (w : tstate) : list tevent * ending * tstate :=
  match p with
  | TStop r => ([], Returned r, w)
  | TThen m k =>
      let go a w' := let '(t, e, w'') := texec Es (S n) (k a) w' in ((m, a) :: t, e, w'') in
      match tmake (Es n) m w with
      | (Val a, w') => go a w'
      | (Exn e, w') => go (Error e) w'
      | (_, w') => ([], Crashed, w')
      end
  end.

(** ** The description *)

(** A text of the program, or [n] characters of the url [x] from position [p] on. *)
Inductive tmark := KText (s : str) | KPart (x p n : nat).
(** Besides the urls: the room that every url has for certain, the size its storage
    remembers (as [c_size], but in every build), and the variables; [None]: the
    view must not be used. *)
Record tknown := mk_tknown { tk_urls : descs; tk_room : nat -> nat; tk_size : nat -> nat; tk_vars : nat -> option tmark }.
Definition tknown0 : tknown := mk_tknown (fun _ => desc0) (fun _ => 0) (fun _ => 0) (fun _ => Some (KText [])).
Definition whole (s : tknown) (x : nat) : str := recompose (c_uri (tk_urls s x)).
Definition contents (s : tknown) (m : tmark) : str := match m with KText t => t | KPart x p n => firstn n (skipn p (whole s x)) end.
(** The url still has these characters. *)
Definition readable (s : tknown) (m : tmark) : Prop := match m with KText _ => True | KPart x p n => n = 0 \/ p + n <= length (whole s x) end.
Definition mark_size (m : tmark) : nat := match m with KText t => length t | KPart _ _ n => n end.
Definition sub_mark (m : tmark) (p n : nat) : tmark :=
  match m with KText t => KText (firstn n (skipn p t)) | KPart x q k => KPart x (q + p) (Nat.min n (k - p)) end.
Definition tmarked (i : nat) (m : option tmark) (s : tknown) : tknown := mk_tknown (tk_urls s) (tk_room s) (tk_size s) (set_var i m (tk_vars s)).

(** Where the parts of a URL begin, in the order of [part_texts] (SpecGrammar);
    where the text of an accessor begins and how long it is. *)
Definition part_start (k : nat) (a : uri) : nat := length (concat (firstn k (part_texts a))).
Definition len (o : option str) : nat := length (same o).
Definition one (o : option str) : nat := match o with Some _ => 1 | None => 0 end.
Definition place (a : uri) (q : accessor) : nat * nat :=
  let au := match uri_authority a with Some _ => 2 | None => 0 end in
  match q with
  | A_url => (0, length (recompose a))
  | A_origin => (0, part_start 5 a)
  | A_scheme => (0, len (uri_scheme a))
  | A_authority => (part_start 1 a + au, part_start 5 a - part_start 1 a - au)
  | A_userinfo => (part_start 1 a + au, len (the_userinfo a))
  | A_userinfo_part => (part_start 1 a + au, len (the_userinfo a) + one (the_userinfo a))
  | A_user => (part_start 1 a + au, length (the_user a))
  | A_password => (part_start 2 a + one (the_password a), len (the_password a))
  | A_host_and_port => (part_start 3 a, part_start 5 a - part_start 3 a)
  | A_host => (part_start 3 a, length (the_host a))
  | A_port => (part_start 4 a + one (the_port a), len (the_port a))
  | A_port_part => (part_start 4 a, len (the_port a) + one (the_port a))
  | A_path => (part_start 5 a, length (uri_path a))
  | A_query => (part_start 6 a + one (uri_query a), len (uri_query a))
  | A_query_part => (part_start 6 a, len (uri_query a) + one (uri_query a))
  | A_fragment => (part_start 7 a + one (uri_fragment a), len (uri_fragment a))
  | A_fragment_part => (part_start 7 a, len (uri_fragment a) + one (uri_fragment a))
  end.

(** Where segment [k] and the key and value of parameter [k] are; a parameter
    without "=" has no value.  (A segment ends where the next one begins, with its
    slash.) *)
Definition segment_mark (x : nat) (a : uri) (k : nat) : tmark :=
  let n := length (nth k (the_segments a) []) in KPart x (starts a (S k) - n) n.
Definition key_mark (x : nat) (a : uri) (k : nat) : tmark :=
  KPart x (pstarts a k + 1) (length (fst (nth k (raw_params a) ([], None)))).
Definition value_mark (x : nat) (a : uri) (k : nat) : tmark :=
  match snd (nth k (raw_params a) ([], None)) with Some v => KPart x (pkey a k + 1) (length v) | None => KText [] end.

(** The question that the accessor answers. *)
Definition asks (q : accessor) : question :=
  match q with
  | A_url => Q_url | A_origin => Q_origin | A_scheme => Q_scheme | A_authority => Q_authority | A_userinfo => Q_userinfo | A_userinfo_part => Q_userinfo_part
  | A_user => Q_encoded_user | A_password => Q_encoded_password | A_host_and_port => Q_host_and_port | A_host => Q_encoded_host | A_port => Q_port
  | A_port_part => Q_port_part | A_path => Q_path | A_query => Q_encoded_query | A_query_part => Q_query_part | A_fragment => Q_encoded_fragment
  | A_fragment_part => Q_fragment_part
  end.
(** The room that an action needs, which changes the url from [c] to [c'], when the
    storage remembers the size [z]; and the size it remembers then. *)
Definition edit_needs (e : edit) (c : desc) (z : nat) : nat :=
  let a := c_uri c in
  match e with
  | Insert_encoded _ s => length (recompose a) + (length s + 1)
  | Insert _ s => length (recompose a) + (length (canonical_encoding k_pchar s) + 1)
  | Erase _ | Erase_range _ _ => 0
  | Replace_encoded i s => z + length s - length (nth i (the_segments a) [])
  | Replace i s => z + length (canonical_encoding k_pchar s) - length (nth i (the_segments a) [])
  end.
Definition needs (f : action) (c c' : desc) (z : nat) : nat :=
  match f with
  | Call o => need o (c_uri c) (c_uri c')
  | Edit e => edit_needs e c z
  | New _ | Ask _ => 0
  end.
Definition size_then (f : action) (c c' : desc) (z : nat) : nat :=
  let n := length (recompose (c_uri c)) in
  let n' := length (recompose (c_uri c')) in
  match f with
  | New _ => n'
  | Call o => if replaces o then n' else if grows_and_shrinks o (c_uri c) then n' + 2 else if n <? n' then n' else z
  | Edit (Erase_range i j) => if i =? j then z else n'
  | Edit _ => n'
  | Ask _ => z
  end.
Definition room_then (f : action) (c c' : desc) (z r : nat) : nat :=
  match f with
  | New _ => length (recompose (c_uri c'))
  | Call _ | Ask _ => Nat.max r (needs f c c' z)
  | Edit _ => Nat.max r (length (recompose (c_uri c')))
  end.
(** Views of the url stay, unless it is destroyed or may need a new buffer. *)
Definition stays (f : action) (c c' : desc) (z r : nat) : bool :=
  match f with New _ => false | _ => needs f c c' z <=? r end.
(** After the action [f] on url [x] was answered by [a]; a call that throws changes
    nothing. *)
Definition after (x : nat) (f : action) (a : answer) (c' : desc) (s : tknown) : tknown :=
  let c := tk_urls s x in
  let z := tk_size s x in
  let r := tk_room s x in
  match a with
  | Error _ => s
  | _ => mk_tknown (change x c' (tk_urls s)) (set_var x (room_then f c c' z r) (tk_room s)) (set_var x (size_then f c c' z) (tk_size s))
           (fun i => match tk_vars s i with
                     | Some (KPart y p n) => if (y =? x) && negb (stays f c c' z r) then None else Some (KPart y p n)
                     | m => m
                     end)
  end.

Inductive tallows (s : tknown) : tmove -> answer -> tknown -> Prop :=
| t_use x f a c : allows (tk_urls s x) f a c -> tallows s (TUse x f) a (after x f a c s)
| t_part i x q : tallows s (Part i x q) Done (tmarked i (Some (KPart x (fst (place (c_uri (tk_urls s x)) q)) (snd (place (c_uri (tk_urls s x)) q)))) s)
| t_segment i x k : tallows s (Segment i x k) Done (tmarked i (Some (segment_mark x (c_uri (tk_urls s x)) k)) s)
| t_key i x k : tallows s (Key i x k) Done (tmarked i (Some (key_mark x (c_uri (tk_urls s x)) k)) s)
| t_value i x k : tallows s (Value i x k) Done (tmarked i (Some (value_mark x (c_uri (tk_urls s x)) k)) s)
| t_literal i t : tallows s (Literal i t) Done (tmarked i (Some (KText t)) s)
| t_copy i j : tallows s (TCopy i j) Done (tmarked i (tk_vars s j) s)
| t_sub i j p n m : tk_vars s j = Some m -> p <= mark_size m -> tallows s (Sub i j p n) Done (tmarked i (Some (sub_mark m p n)) s)
| t_sub_out i j p n m : tk_vars s j = Some m -> mark_size m < p -> tallows s (Sub i j p n) (Error out_of_range) s
| t_show i m : tk_vars s i = Some m -> tallows s (Show i) (Text (contents s m)) s
| t_pass x o i m a c : tk_vars s i = Some m -> allows (tk_urls s x) (Call (with_text o (contents s m))) a c ->
    tallows s (Pass x o i) a (after x (Call (with_text o (contents s m))) a c s)
| t_pass_edit x e i m a c : tk_vars s i = Some m -> allows (tk_urls s x) (Edit (edit_text e (contents s m))) a c ->
    tallows s (PassEdit x e i) a (after x (Edit (edit_text e (contents s m))) a c s).

Inductive tmay : tknown -> tprog -> list tevent -> str -> tknown -> Prop :=
| tmay_stop s r : tmay s (TStop r) [] r s
| tmay_then s m p a s1 t r s2 : tallows s m a s1 -> tmay s1 (p a) t r s2 -> tmay s (TThen m p) ((m, a) :: t) r s2.

(** ** What a program must not do *)

(** The position of the first character that [o] replaces in a url with components
    [a]. *)
Definition first_place (o : op) (a : uri) : nat :=
  match o with
  | Set_encoded_url _ | Set_encoded_origin _ | Set_scheme _ | Normalize => 0
  | Set_encoded_authority _ | Set_encoded_userinfo _ | Set_userinfo_part _ | Set_user _ | Set_encoded_user _ => part_start 1 a
  | Set_password _ | Set_encoded_password _ | Set_password_part _ => match uri_authority a with Some _ => part_start 2 a | None => part_start 1 a end
  | Set_host _ | Set_encoded_host _ => match uri_authority a with Some _ => part_start 3 a | None => part_start 1 a end
  | Set_port _ | Set_port_n _ | Set_port_part _ => match uri_authority a with Some _ => part_start 4 a | None => part_start 1 a end
  | Set_encoded_path _ => part_start 5 a
  | Set_query _ | Set_encoded_query _ | Set_query_part _ => part_start 6 a
  | Set_fragment _ | Set_encoded_fragment _ | Set_fragment_part _ => part_start 7 a
  end.
(** The characters [p], ..., [p + n - 1] of a url may be the argument of its own
    modifier: there is nothing to copy; or there is room, and they come before
    everything that is replaced (if all is replaced, behind the copy). *)
Definition own_call (s : tknown) (x : nat) (o : op) (t : str) (p n : nat) : Prop :=
  let a := c_uri (tk_urls s x) in
  n = 0 \/ ~ has_text o t \/
  (forall a', step (with_text o t) a a' -> need (with_text o t) a a' <= tk_room s x) /\
  (p + n <= first_place o a \/ match o with Set_encoded_url _ => n < p | _ => False end).
Definition own_edit_ok (s : tknown) (x : nat) (e : edit) (p n : nat) : Prop :=
  let c := tk_urls s x in
  n <> 0 /\ c_pars c = param_count (c_uri c) /\ edit_needs e c (tk_size s x) <= tk_room s x /\ p + n <= starts (c_uri c) (edit_at e).
Definition tpermitted (d : bool) (s : tknown) (m : tmove) : Prop :=
  match m with
  | TUse x f => permitted d (tk_urls s x) f
  | Part _ _ _ | Literal _ _ | TCopy _ _ => True
  | Segment _ x k => right_counter (tk_urls s x) /\ k < length (the_segments (c_uri (tk_urls s x)))
  | Key _ x k | Value _ x k => right_pcounter (tk_urls s x) /\ can_iterate (c_uri (tk_urls s x)) = true /\ k < length (params_of (c_uri (tk_urls s x)))
  | Sub i j p n => tk_vars s j <> None
  | Show i => exists m, tk_vars s i = Some m /\ readable s m
  | Pass x o i => exists m, tk_vars s i = Some m /\ readable s m /\ arg_text o <> None /\
      permitted d (tk_urls s x) (Call (with_text o (contents s m))) /\
      match m with KPart y p n => y = x -> own_call s x o (contents s m) p n | KText _ => True end
  | PassEdit x e i => exists m, tk_vars s i = Some m /\ readable s m /\ edit_arg e <> None /\
      permitted d (tk_urls s x) (Edit (edit_text e (contents s m))) /\
      match m with KPart y p n => y = x -> own_edit_ok s x (edit_text e (contents s m)) p n | KText _ => True end
  end.
Fixpoint tcareful (d : bool) (s : tknown) (p : tprog) : Prop :=
  match p with
  | TStop _ => True
  | TThen m q => tpermitted d s m /\ forall a s', tallows s m a s' -> tcareful d s' (q a)
  end.

(** The urls and views [w] are as [s] says. *)
Record tdescribed (d : bool) (w : tstate) (s : tknown) : Prop := {
  td_urls : forall x, stands d (t_urls w x) (tk_urls s x);
  td_room : forall x, tk_room s x <= st_cap (u_st (t_urls w x));
  td_size : forall x, st_size (u_st (t_urls w x)) = tk_size s x;
  td_vars : forall i m, tk_vars s i = Some m ->
    match m with
    | KText t => t_vars w i = Lit t
    | KPart x p n => t_vars w i = At x (t_born w x) (st_allocs (u_st (t_urls w x))) p n
    end
}.
Definition tout_of_room (v : tevent) : Prop := match v with (_, Error (bad_alloc | too_large)) => True | _ => False end.
