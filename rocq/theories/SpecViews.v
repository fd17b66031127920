(** * SpecViews: programs that hold url_views

    The programs of SpecWhole, which in addition construct url_views from
    string_views, keep them, and use them while the urls whose characters they
    view are modified.  A url_view is a string_view with the offsets that the parser
    found, so here it lives in a variable of type string_view that has been parsed;
    the variable can be copied before.  It is gone when the variable is assigned. *)

From Verif Require Import Base ModelChar ModelParts ModelParse ModelView ModelUrl ModelUrls ModelAlias ModelElems ModelPieces ModelViewPieces SpecChar SpecGrammar SpecLink SpecView
  SpecStore SpecUrl SpecHistory SpecSetters SpecIter SpecSegments SpecElems SpecHeld SpecMixed SpecStale SpecUrls SpecAlias SpecProgram SpecHolder SpecTexts SpecWhole SpecLocal.

(** ** Functions *)

(** [z], [y]: url_views; [v]: a string_view. *)
Inductive vmove :=
| Also (m : wmove)                      (* as in SpecWhole *)
| Parse (z : nat)                       (* z = url_view(z) *)
| VCopy (z y : nat)                     (* z = y *)
| VAsk (z : nat) (q : question)         (* z.encoded_host(), and so on *)
| VPart (v z : nat) (q : accessor)      (* v = z.encoded_host(), and so on *).

(** ** The library *)

(** The functions of url_view, as [ask]. *)
Definition ask_view (d : bool) (q : question) (v : view) : outcome answer :=
  match q with
  | Q_has_userinfo => omap Truth (has_userinfo_view d v)
  | Q_userinfo => omap Text (encoded_userinfo_view d v)
  | Q_encoded_password => omap Text (encoded_password_view d v)
  | Q_password => omap Text (password_view d v)
  | Q_segments => omap Texts (seg_all d v (seg_parse_view d v) (2 + size v))
  | _ => ask d q v
  end.

(** [p_offsets z]: the offsets; [None]: there is no url_view. *)
Record vstate := mk_vstate { p_whole : wstate; p_offsets : nat -> option parts }.
Definition vstate0 : vstate := mk_vstate wstate0 (fun _ => None).
(** What the functions of the url_view [z] see: the bytes that are there now, and the
    offsets.  Those of a buffer that is gone are indeterminate; reading one is
    undefined. *)
Definition cells (h : urls) (born : nat -> nat) (t : tvar) : list cell :=
  match t with
  | Lit s => map Some s
  | At x b g o n =>
      let l := if (b =? born x) && (g =? st_allocs (u_st (h x))) then firstn n (skipn o (v_mem (view_of (h x)))) else [] in
      l ++ repeat None (n - length l)
  end.
Definition seen (w : wstate) (offsets : nat -> option parts) (z : nat) : outcome view :=
  match offsets z with
  | Some pt => Val (mk_view (cells (w_urls w) (w_born w) (w_texts w z)) pt)
  | None => UB
  end.
(** The variable that is assigned. *)
Definition assigned (m : wmove) : option nat :=
  match m with
  | View (Part v _ _ | Segment v _ _ | Key v _ _ | Value v _ _ | Literal v _ | TCopy v _ | Sub v _ _ _) => Some v
  | View_segment v _ | View_key v _ | View_value v _ => Some v
  | _ => None
  end.
Definition forget {I} (v : option nat) (g : nat -> option I) : nat -> option I := match v with Some v => set_var v None g | None => g end.
Definition assign (v : nat) (t : tvar) (w : wstate) : wstate := mk_wstate (w_urls w) (w_segs w) (w_pars w) (w_born w) (set_var v t (w_texts w)).

Definition vmake (E : env) (m : vmove) (w : vstate) : outcome answer * vstate :=
  let (s, g) := w in
  match m with
  | Also m => let (r, s') := wmake E m s in (r, mk_vstate s' (match r with Val _ => forget (assigned m) g | _ => g end))
  | Parse z =>
      match obind (read_var (w_urls s) (w_born s) (w_texts s z)) (make_url_view (dbg E)) with
      | Val v => (Val Done, mk_vstate s (set_var z (Some (v_pt v)) g))
      | r => (omap (fun _ => Done) r, w)
      end
  | VCopy z y => (Val Done, mk_vstate (assign z (w_texts s y) s) (set_var z (g y) g))
  | VAsk z q => (obind (seen s g z) (ask_view (dbg E) q), w)
  | VPart v z q =>
      match obind (seen s g z) (fun x => piece_of_view (dbg E) x q) with
      | Val (Some (o, n)) => (Val Done, mk_vstate (assign v (sub_var (w_texts s z) o n) s) (set_var v None g))
      | Val None => (Val Done, mk_vstate (assign v (Lit []) s) (set_var v None g))
      | r => (omap (fun _ => Done) r, w)
      end
  end.

Inductive vprog :=
| VStop (r : str)
| VThen (m : vmove) (k : answer -> vprog).
Definition vevent : Type := vmove * answer.
Fixpoint vexec (Es : nat -> env) (n : nat) (p : vprog) (w : vstate) : list vevent * ending * vstate :=
  match p with
  | VStop r => ([], Returned r, w)
  | VThen m k =>
      let go a w' := let '(t, e, w'') := vexec Es (S n) (k a) w' in ((m, a) :: t, e, w'') in
      match vmake (Es n) m w with
      | (Val a, w') => go a w'
      | (Exn e, w') => go (Error e) w'
      | (_, w') => ([], Crashed, w')
      end
  end.

(** ** The description *)

(** Besides [wknown]: the components of the text that was parsed, and the type of
    its host; [None]: no url_view. *)
Record vknown := mk_vknown { vk_whole : wknown; vk_parsed : nat -> option (uri * host_type) }.
Definition vknown0 : vknown := mk_vknown wknown0 (fun _ => None).
Definition texts_of (s : vknown) : nat -> option tmark := wk_texts (vk_whole s).
Definition contents_of (s : vknown) (m : tmark) : str := contents (known_views (vk_whole s)) m.
Definition mark_text (v : nat) (m : option tmark) (s : wknown) : wknown := with_views (tmarked v m (known_views s)) s.
(** [usable s z m a h (i, j)]: the url_view [z] still has the characters of the parts
    [i] to before [j] that were parsed (and the length). *)
Definition usable (s : vknown) (z : nat) (m : tmark) (a : uri) (h : host_type) (r : nat * nat) : Prop :=
  let p := part_start (fst r) a in
  let n := part_start (snd r) a - p in
  texts_of s z = Some m /\ vk_parsed s z = Some (a, h) /\ mark_size m = length (recompose a) /\
  readable (known_views (vk_whole s)) (sub_mark m p n) /\ contents_of s (sub_mark m p n) = firstn n (skipn p (recompose a)).
(** Where the text of an accessor is; there is none if there is no password. *)
Definition part_of_view (m : tmark) (a : uri) (q : accessor) : tmark :=
  let there := sub_mark m (fst (place a q)) (snd (place a q)) in
  match q with A_password => if is_some (the_password a) then there else KText [] | _ => there end.

Inductive vallows (s : vknown) : vmove -> answer -> vknown -> Prop :=
| v_also m a s' : wallows (vk_whole s) m a s' ->
    vallows s (Also m) a (mk_vknown s' (match a with Error _ => vk_parsed s | _ => forget (assigned m) (vk_parsed s) end))
| v_parsed z m a h : texts_of s z = Some m -> wf accepted a -> recompose a = contents_of s m -> host_class (the_host a) h ->
    vallows s (Parse z) Done (mk_vknown (vk_whole s) (set_var z (Some (a, h)) (vk_parsed s)))
| v_rejected z m : texts_of s z = Some m -> (forall a, wf accepted a -> recompose a <> contents_of s m) -> vallows s (Parse z) (Error invalid_part) s
| v_copy z y : vallows s (VCopy z y) Done (mk_vknown (mark_text z (texts_of s y) (vk_whole s)) (set_var z (vk_parsed s y) (vk_parsed s)))
| v_ask z q a h r : vk_parsed s z = Some (a, h) -> replies (parsed_desc a h) q r -> vallows s (VAsk z q) r s
| v_part v z q m a h : texts_of s z = Some m -> vk_parsed s z = Some (a, h) ->
    vallows s (VPart v z q) Done (mk_vknown (mark_text v (Some (part_of_view m a q)) (vk_whole s)) (set_var v None (vk_parsed s))).

Inductive vmay : vknown -> vprog -> list vevent -> str -> vknown -> Prop :=
| vmay_stop s r : vmay s (VStop r) [] r s
| vmay_then s m p a s1 t r s2 : vallows s m a s1 -> vmay s1 (p a) t r s2 -> vmay s (VThen m p) ((m, a) :: t) r s2.

(** ** What a program must not do *)

(** A function must not be called if the characters of the parts it reads have been
    changed, or the string_view is no longer valid.  Iterating as in C62 and C63. *)
Definition vpermitted (d : bool) (s : vknown) (m : vmove) : Prop :=
  match m with
  | Also m => wpermitted d (vk_whole s) m
  | Parse z => exists m, texts_of s z = Some m /\ readable (known_views (vk_whole s)) m
  | VCopy _ _ => True
  | VAsk z q => exists m a h, usable s z m a h (reads q) /\
      match q with
      | Q_segments => uri_query a = None \/ uri_path a = []
      | Q_params | Q_contains _ | Q_count _ | Q_index _ | Q_at _ => iterable a
      | _ => True
      end
  | VPart _ z q => exists m a h, usable s z m a h (reads (asks q))
  end.
Fixpoint vcareful (d : bool) (s : vknown) (p : vprog) : Prop :=
  match p with
  | VStop _ => True
  | VThen m q => vpermitted d s m /\ forall a s', vallows s m a s' -> vcareful d s' (q a)
  end.

(** The urls, iterators, string_views and url_views [w] are as [s] says. *)
Definition vdescribed (d : bool) (w : vstate) (s : vknown) : Prop :=
  wdescribed d (p_whole w) (vk_whole s) /\
  forall z a h, vk_parsed s z = Some (a, h) -> wf accepted a /\ exists v, make_url_view d (recompose a) = Val v /\ p_offsets w z = Some (v_pt v) /\ get_host_type v = h.
Definition vout_of_room (v : vevent) : Prop := match v with (_, Error (bad_alloc | too_large)) => True | _ => False end.
