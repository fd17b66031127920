(** * SpecLife: url_views that come and go *)

From Verif Require Import Base ModelChar ModelParts ModelParse ModelView ModelLife.

(** The object that an action constructs, assigns or destroys. *)
Definition target (c : action) : nat :=
  match c with Construct x _ | Default x | Copy x _ | Assign x _ | Destroy x => x end.

(** [keeps_text d x s h h']: any finite sequence of actions leads from [h] to
    [h'].  Each one concerns another object than the one at [x], or leaves there
    a url_view of the text [s]; exceptions are caught. *)
Inductive keeps_text (d : bool) (x : nat) (s : str) (h : objects) : objects -> Prop :=
| kept_start : keeps_text d x s h h
| kept_next c h1 h2 :
    keeps_text d x s h h1 -> act d c h1 = Val h2 ->
    target c <> x \/ (exists w, h2 x = Some w /\ make_url_view d s = Val w) -> keeps_text d x s h h2
| kept_exception c h1 e : keeps_text d x s h h1 -> act d c h1 = Exn e -> keeps_text d x s h h1.

(** The two url_views have their path and what follows it at the same places. *)
Definition same_layout (v w : view) : Prop :=
  off (v_pt v) id_path = off (v_pt w) id_path /\ off (v_pt v) id_query = off (v_pt w) id_query /\
  off (v_pt v) id_frag = off (v_pt w) id_frag /\ nseg (v_pt v) = nseg (v_pt w).

(** A loop that compares with the end of another range:
    for(it = r.begin(); it != other.end(); ++it). *)
Fixpoint vseg_loop (d : bool) (r : vrange) (h : objects) (fuel : nat) (it last : vseg_it) : outcome (list str) :=
  match fuel with
  | O => Hang
  | S n =>
      let! e := vseg_eq d it last in
      if e then Val [] else
      let! w := range_sees r h in
      let! s := seg_deref w (snd it) in
      let! p := seg_incr d w (seg_parse_view d w) (snd it) in
      let! l := vseg_loop d r h n (fst it, p) last in
      Val (s :: l)
  end.
Definition list_between (d : bool) (r1 r2 : vrange) (h : objects) (fuel : nat) : outcome (list str) :=
  let! b := vseg_begin d r1 h in
  let! e := vseg_end d r2 h in
  vseg_loop d r1 h fuel b e.

(** The same for parameters. *)
Fixpoint vpar_loop (d : bool) (r : vrange) (h : objects) (fuel : nat) (it last : vpar_it) : outcome (list (str * str)) :=
  match fuel with
  | O => Hang
  | S n =>
      let! e := vpar_eq d it last in
      if e then Val [] else
      let! w := range_sees r h in
      let! s := par_deref d w (snd it) in
      let! p := par_incr d w (snd it) in
      let! l := vpar_loop d r h n (fst it, p) last in
      Val (s :: l)
  end.
Definition list_params_between (d : bool) (r1 r2 : vrange) (h : objects) (fuel : nat) : outcome (list (str * str)) :=
  let! b := vpar_begin d r1 h in
  let! e := vpar_end d r2 h in
  vpar_loop d r1 h fuel b e.

(** r1.find(key) == r2.end() *)
Definition absent (d : bool) (r1 r2 : vrange) (h : objects) (fuel : nat) (key : str) : outcome bool :=
  let! i := vpar_find d r1 h fuel key in
  let! e := vpar_end d r2 h in
  vpar_eq d i e.
