(** * SpecWhole: programs that hold iterators and string_views

    The programs of SpecHolder and of SpecTexts in one: any number of urls, of
    iterators of their segments and parameters, and of string_views, which can be
    taken from what an iterator refers to, and be the text that is inserted at an
    iterator. *)

From Verif Require Import Base ModelChar ModelParts ModelView ModelUrl ModelUrls ModelAlias ModelElems ModelPieces SpecChar SpecGrammar SpecLink SpecView SpecStore SpecUrl SpecHistory SpecSetters
  SpecIter SpecSegments SpecElems SpecHeld SpecMixed SpecStale SpecUrls SpecAlias SpecProgram SpecHolder SpecTexts.

(** ** Functions *)

(** [i]: an iterator; [v]: a string_view; [x]: a url. *)
Inductive wmove :=
| Iter (m : move)                       (* as in SpecHolder *)
| View (m : tmove)                      (* as in SpecTexts *)
| View_segment (v i : nat)              (* v = the encoded string of *i *)
| View_key (v i : nat)                  (* v = the encoded key of *i *)
| View_value (v i : nat)                (* v = the encoded value of *i *)
| Find_view (i x v : nat)               (* i = x.params().find(v) *)
| Change_view (i x : nat) (c : seg_call nat) (v : nat)
    (* i = x.segments().insert(j, v), and so on; the text in [c] does not matter *).

(** ** The library *)

Record wstate := mk_wstate { w_urls : urls; w_segs : nat -> iter; w_pars : nat -> piter; w_born : nat -> nat; w_texts : nat -> tvar }.
Definition wstate0 : wstate := mk_wstate (fun _ => url0) (fun _ => no_iter) (fun _ => no_piter) (fun _ => 0) (fun _ => Lit []).
Definition iters_of (w : wstate) : state := mk_state (w_urls w) (w_segs w) (w_pars w).
Definition views_of (w : wstate) : tstate := mk_tstate (w_urls w) (w_born w) (w_texts w).

(** [v] becomes a view of [n] characters of url [x] at [o]. *)
Definition view_at (v x o n : nat) (w : wstate) : wstate :=
  mk_wstate (w_urls w) (w_segs w) (w_pars w) (w_born w) (set_var v (At x (w_born w x) (st_allocs (u_st (w_urls w x))) o n) (w_texts w)).
(** base.ipp:1385-1506: [insert_encoded], [insert], [replace_encoded] and [replace]
    of url [x] with an iterator and a view.  An iterator of another url is not
    modelled here ([UB]); see ModelUrls. *)
Definition change_from (E : env) (x : nat) (c : seg_call iter) (s : source) : W iter := fun h =>
  let at_ p (m : U seg_it) :=
    if ModelUrls.same_url (it_v p) (Some x) then let (r, u) := m (h x) in (omap (mk_iter (Some x)) r, put x u h) else (UB, h) in
  match c with
  | CInsert_encoded p _ => at_ p (own_insert_encoded E (it_at p) s)
  | CInsert p _ => at_ p (own_insert E (it_at p) s)
  | CReplace_encoded p _ => at_ p (own_replace_encoded E (it_at p) s)
  | CReplace p _ => at_ p (own_replace E (it_at p) s)
  | CErase _ | CErase_range _ _ => wcall E x c h
  end.
Definition wmake (E : env) (m : wmove) (w : wstate) : outcome answer * wstate :=
  let h := w_urls w in
  match m with
  | Iter m =>
      let (r, s) := make_move E m (iters_of w) in
      let born := match m, r with Use x (New _), Val _ => set_var x (S (w_born w x)) (w_born w) | _, _ => w_born w end in
      (r, mk_wstate (s_urls s) (s_vars s) (s_pvars s) born (w_texts w))
  | View m => let (r, s) := tmake E m (views_of w) in (r, mk_wstate (t_urls s) (w_segs w) (w_pars w) (t_born s) (t_vars s))
  | View_segment v i =>
      match it_v (w_segs w i) with
      | Some x =>
          match segment_piece (view_of (h x)) (it_at (w_segs w i)) with
          | Val (o, n) => (Val Done, view_at v x o n w)
          | r => (omap (fun _ => Done) r, w)
          end
      | None => (UB, w)
      end
  | View_key v i =>
      match pi_v (w_pars w i) with
      | Some x =>
          match key_piece (dbg E) (view_of (h x)) (pi_at (w_pars w i)) with
          | Val (o, n) => (Val Done, view_at v x o n w)
          | r => (omap (fun _ => Done) r, w)
          end
      | None => (let! _ := oassert (dbg E) false in UB, w)
      end
  | View_value v i =>
      match pi_v (w_pars w i) with
      | Some x =>
          match value_piece (dbg E) (view_of (h x)) (pi_at (w_pars w i)) with
          | Val (Some (o, n)) => (Val Done, view_at v x o n w)
          | Val None => (Val Done, mk_wstate h (w_segs w) (w_pars w) (w_born w) (set_var v (Lit []) (w_texts w)))
          | r => (omap (fun _ => Done) r, w)
          end
      | None => (let! _ := oassert (dbg E) false in UB, w)
      end
  | Find_view i x v =>
      match read_var h (w_born w) (w_texts w v) with
      | Val key => let (r, s) := pinto i (wpfind E x key) (iters_of w) in (r, mk_wstate (s_urls s) (s_vars s) (s_pvars s) (w_born w) (w_texts w))
      | r => (omap (fun _ => Done) r, w)
      end
  | Change_view i x c v =>
      match source_for h (w_born w) x (w_texts w v) with
      | Val t => let (r, s) := into i (change_from E x (call_map (w_segs w) c) t) (iters_of w) in (r, mk_wstate (s_urls s) (s_vars s) (s_pvars s) (w_born w) (w_texts w))
      | r => (omap (fun _ => Done) r, w)
      end
  end.

Inductive wprog :=
| WStop (r : str)
| WThen (m : wmove) (k : answer -> wprog).
Definition wevent : Type := wmove * answer.
Fixpoint wexec (Es : nat -> env) (n : nat) (p : wprog) (w : wstate) : list wevent * ending * wstate :=
  match p with
  | WStop r => ([], Returned r, w)
  | WThen m k =>
      let go a w' := let '(t, e, w'') := wexec Es (S n) (k a) w' in ((m, a) :: t, e, w'') in
      match wmake (Es n) m w with
      | (Val a, w') => go a w'
      | (Exn e, w') => go (Error e) w'
      | (_, w') => ([], Crashed, w')
      end
  end.

(** ** The description *)

(** As [known] and [tknown]. *)
Record wknown := mk_wknown { wk_urls : descs; wk_segs : marks; wk_pars : marks; wk_room : nat -> nat; wk_size : nat -> nat; wk_texts : nat -> option tmark }.
Definition wknown0 : wknown := mk_wknown (fun _ => desc0) (fun _ => None) (fun _ => None) (fun _ => 0) (fun _ => 0) (fun _ => Some (KText [])).
Definition known_iters (s : wknown) : known := mk_known (wk_urls s) (wk_segs s) (wk_pars s).
Definition known_views (s : wknown) : tknown := mk_tknown (wk_urls s) (wk_room s) (wk_size s) (wk_texts s).
Definition with_iters (k : known) (s : wknown) : wknown := mk_wknown (wk_urls s) (k_segs k) (k_pars k) (wk_room s) (wk_size s) (wk_texts s).
Definition with_views (k : tknown) (s : wknown) : wknown := mk_wknown (wk_urls s) (wk_segs s) (wk_pars s) (tk_room k) (tk_size k) (tk_vars k).

(** After the action [f] on url [x] was answered by [a]: iterators stay valid as in
    SpecHolder, views as in SpecTexts; a call that throws changes nothing. *)
Definition acted_on (x : nat) (f : action) (a : answer) (c' : desc) (s : wknown) : wknown :=
  match a with
  | Error _ => s
  | _ =>
      let c := wk_urls s x in
      let t := after x f a c' (known_views s) in
      mk_wknown (change x c' (wk_urls s)) (settled x f c c' (wk_segs s)) (psettled x f c c' (wk_pars s)) (tk_room t) (tk_size t) (tk_vars t)
  end.
(** Moves that call no modifier. *)
Definition quiet (m : move) : bool := match m with Use _ _ | Change _ _ _ => false | _ => true end.
Definition tquiet (m : tmove) : bool := match m with TUse _ _ | Pass _ _ _ | PassEdit _ _ _ => false | _ => true end.
(** The result of an edit of [x] is assigned to [i], unless it throws. *)
Definition result_in (i x : nat) (e : edit) (a : answer) (s : wknown) : wknown :=
  match a with Error _ => s | _ => with_iters (marked i (Some (x, returned e)) (known_iters s)) s end.

Inductive wallows (s : wknown) : wmove -> answer -> wknown -> Prop :=
| w_iter m a k : quiet m = true -> hallows (known_iters s) m a k -> wallows s (Iter m) a (with_iters k s)
| w_use x f a c : allows (wk_urls s x) f a c -> wallows s (Iter (Use x f)) a (acted_on x f a c s)
| w_change i x c e a d : edit_of (wk_segs s) x c e -> allows (wk_urls s x) (Edit e) a d ->
    wallows s (Iter (Change i x c)) a (result_in i x e a (acted_on x (Edit e) a d s))
| w_view m a k : tquiet m = true -> tallows (known_views s) m a k -> wallows s (View m) a (with_views k s)
| w_view_use x f a c : allows (wk_urls s x) f a c -> wallows s (View (TUse x f)) a (acted_on x f a c s)
| w_pass x o v m a c : wk_texts s v = Some m -> allows (wk_urls s x) (Call (with_text o (contents (known_views s) m))) a c ->
    wallows s (View (Pass x o v)) a (acted_on x (Call (with_text o (contents (known_views s) m))) a c s)
| w_pass_edit x e v m a c : wk_texts s v = Some m -> allows (wk_urls s x) (Edit (edit_text e (contents (known_views s) m))) a c ->
    wallows s (View (PassEdit x e v)) a (acted_on x (Edit (edit_text e (contents (known_views s) m))) a c s)
| w_segment v i x j : wk_segs s i = Some (x, j) ->
    wallows s (View_segment v i) Done (with_views (tmarked v (Some (segment_mark x (c_uri (wk_urls s x)) j)) (known_views s)) s)
| w_key v i x j : wk_pars s i = Some (x, j) ->
    wallows s (View_key v i) Done (with_views (tmarked v (Some (key_mark x (c_uri (wk_urls s x)) j)) (known_views s)) s)
| w_value v i x j : wk_pars s i = Some (x, j) ->
    wallows s (View_value v i) Done (with_views (tmarked v (Some (value_mark x (c_uri (wk_urls s x)) j)) (known_views s)) s)
| w_find i x v m j : wk_texts s v = Some m -> finds (contents (known_views s) m) (params_of (c_uri (wk_urls s x))) j ->
    wallows s (Find_view i x v) Done (with_iters (pmarked i (Some (x, j)) (known_iters s)) s)
| w_change_view i x c v m e a d : wk_texts s v = Some m -> edit_of (wk_segs s) x c e ->
    allows (wk_urls s x) (Edit (edit_text e (contents (known_views s) m))) a d ->
    wallows s (Change_view i x c v) a
      (result_in i x (edit_text e (contents (known_views s) m)) a (acted_on x (Edit (edit_text e (contents (known_views s) m))) a d s)).

Inductive wmay : wknown -> wprog -> list wevent -> str -> wknown -> Prop :=
| wmay_stop s r : wmay s (WStop r) [] r s
| wmay_then s m p a s1 t r s2 : wallows s m a s1 -> wmay s1 (p a) t r s2 -> wmay s (WThen m p) ((m, a) :: t) r s2.

(** ** What a program must not do *)

Definition wpermitted (d : bool) (s : wknown) (m : wmove) : Prop :=
  match m with
  | Iter m => hpermitted d (known_iters s) m
  | View m => tpermitted d (known_views s) m
  | View_segment v i => exists x j, wk_segs s i = Some (x, j) /\ j < length (the_segments (c_uri (wk_urls s x)))
  | View_key v i | View_value v i => exists x j, wk_pars s i = Some (x, j) /\ j < length (params_of (c_uri (wk_urls s x)))
  | Find_view i x v => (exists m, wk_texts s v = Some m /\ readable (known_views s) m) /\
      right_pcounter (wk_urls s x) /\ can_iterate (c_uri (wk_urls s x)) = true
  | Change_view i x c v => exists m e, wk_texts s v = Some m /\ readable (known_views s) m /\ edit_of (wk_segs s) x c e /\ edit_arg e <> None /\
      permitted d (wk_urls s x) (Edit (edit_text e (contents (known_views s) m))) /\
      match m with KPart y p n => y = x -> own_edit_ok (known_views s) x (edit_text e (contents (known_views s) m)) p n | KText _ => True end
  end.
Fixpoint wcareful (d : bool) (s : wknown) (p : wprog) : Prop :=
  match p with
  | WStop _ => True
  | WThen m q => wpermitted d s m /\ forall a s', wallows s m a s' -> wcareful d s' (q a)
  end.

(** The urls, iterators and views [w] are as [s] says. *)
Definition wdescribed (d : bool) (w : wstate) (s : wknown) : Prop :=
  described d (iters_of w) (known_iters s) /\ tdescribed d (views_of w) (known_views s).
Definition wout_of_room (v : wevent) : Prop := match v with (_, Error (bad_alloc | too_large)) => True | _ => False end.
