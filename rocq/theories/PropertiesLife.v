(** * PropertiesLife: ranges of url_views that come and go

    [keeps_text], [same_layout], [list_between]: SpecLife. *)

From Verif Require Import Base ModelChar ModelParts ModelParse ModelView ModelLife SpecChar SpecGrammar SpecIter SpecSegments SpecLife ProofsLife.

(** ** C109 *)

(** A range of a url_view of [s] goes on showing the segments and parameters of
    [s], whatever url_views are made, assigned and destroyed meanwhile, as long
    as a url_view of [s] stays at its address. *)
Theorem C109_ranges_stay_partial :
  forall (d : bool) (x : nat) (s : str) (v : view) (a : uri) (h h' : objects) (r : vrange),
    make_url_view d s = Val v -> recompose a = s -> wf accepted a ->
    h x = Some v -> range_of h x = Val r -> keeps_text d x s h h' ->
    life_segments_size r h' = Val (length (the_segments a)) /\
    (uri_query a = None \/ uri_path a = [] ->
     forall fuel, length (the_segments a) < fuel -> life_segments d r h' fuel = Val (the_segments a)) /\
    (iterable a ->
     life_params_size r h' = Val (length (params_of a)) /\
     forall fuel, length (params_of a) < fuel -> life_params d r h' fuel = Val (params_of a)).
Proof. exact ranges_stay. Qed.
Print Assumptions C109_ranges_stay_partial.
(** More generally, the list shown depends on the object at that address only
    through where its path and what follows begin. *)
Theorem C109_same_layout_partial :
  forall (d : bool) (r : vrange) (h h' : objects) (v w : view) (fuel : nat),
    h (r_at r) = Some v -> h' (r_at r) = Some w -> same_layout v w ->
    life_segments d r h' fuel = life_segments d r h fuel.
Proof. exact same_layout_same. Qed.
Print Assumptions C109_same_layout_partial.
(** The range of an object that is gone, such as a temporary, cannot be used at
    all: even [size] and [begin] read an object that does not exist. *)
Theorem C109_gone_partial :
  forall (d : bool) (r : vrange) (h : objects) (fuel : nat),
    h (r_at r) = None ->
    life_segments_size r h = UB /\ life_params_size r h = UB /\ life_segments d r h fuel = UB /\
    life_params d r h fuel = UB /\ vseg_begin d r h = UB /\ vseg_end d r h = UB.
Proof. exact gone. Qed.
Print Assumptions C109_gone_partial.

Definition nothing : objects := fun _ => None.
Definition after (d : bool) (cs : list action) : outcome objects :=
  fold_left (fun o c => let! h := o in act d c h) cs (Val nothing).

Definition two (s t : str) : objects := match after true [Construct 0 s; Construct 1 t] with Val h => h | _ => nothing end.

Example C109_example :
  exists v a h h' r, make_url_view true (L "/a/b") = Val v /\ recompose a = L "/a/b" /\ wf accepted a /\
    h 0 = Some v /\ range_of h 0 = Val r /\ keeps_text true 0 (L "/a/b") h h' /\
    h 1 = None /\ h' 1 <> None /\ life_segments true r h' 3 = Val [L "a"; L "b"] /\
    (exists w h2, make_url_view true (L "/x/yz#f") = Val w /\ h2 0 = Some w /\ ~ same_layout v w).
Proof.
  destruct (make_url_view true (L "/a/b")) as [v| | | |] eqn:E; try (vm_compute in E; discriminate).
  destruct (make_url_view true (L "/x/yz#f")) as [w| | | |] eqn:Ew; try (vm_compute in Ew; discriminate).
  exists v. destruct (ProofsIter.view_shown _ _ _ E) as (a0 & Ha & _).
  destruct (ProofsView.make_view_inv _ _ _ E) as (a & W & Ea & _). exists a, (place 0 (Some v) nothing), (place 1 (Some v) (place 0 (Some v) nothing)).
  eexists. split; [reflexivity|]. split; [symmetry; exact Ea|]. split; [exact W|]. split; [reflexivity|]. split; [reflexivity|].
  split; [eapply (kept_next _ _ _ _ (Copy 1 0)); [apply kept_start|reflexivity|left; discriminate]|].
  split; [reflexivity|]. split; [discriminate|]. split; [vm_compute in E; injection E as <-; vm_compute; reflexivity|].
  exists w, (place 0 (Some w) nothing). split; [reflexivity|]. split; [reflexivity|].
  vm_compute in E, Ew. injection E as <-. injection Ew as <-. intros (_ & H & _). vm_compute in H. discriminate.
Qed.

(** That a range of a url_view shows the segments of the text it was made from is
    false.  The range of a temporary url_view reads an object that is gone. *)
Theorem C109_temporary_refuted :
  exists s h r, after true [Construct 0 s; Construct 1 s] = Val h /\ range_of h 0 = Val r /\
    exists h', act true (Destroy 0) h = Val h' /\ life_segments true r h' 9 = UB /\ life_segments_size r h' = UB.
Proof. exists (L "/a"), (two (L "/a") (L "/a")). eexists. split; [vm_compute; reflexivity|]. split; [vm_compute; reflexivity|]. eexists. split; [vm_compute; reflexivity|]. split; vm_compute; reflexivity. Qed.
Print Assumptions C109_temporary_refuted.
(** Assigning another url_view combines the old text with the new offsets: the
    range then shows parts of the old text that are no segments, here the
    password, ... *)
Theorem C109_assigned_refuted :
  exists s t h r, after true [Construct 0 s; Construct 1 t] = Val h /\ range_of h 0 = Val r /\
    life_segments true r h 9 = Val [L "a"] /\
    exists h', act true (Assign 0 1) h = Val h' /\ life_segments true r h' 9 = Val [L ":secret"].
Proof.
  exists (L "//u:secret@h/a"), (L "xx:abcdefg"), (two (L "//u:secret@h/a") (L "xx:abcdefg")). eexists. split; [vm_compute; reflexivity|]. split; [vm_compute; reflexivity|].
  split; [vm_compute; reflexivity|]. eexists. split; [vm_compute; reflexivity|]. vm_compute. reflexivity.
Qed.
Print Assumptions C109_assigned_refuted.
(** ... or reads beyond the old text. *)
Theorem C109_beyond_refuted :
  exists s t h r, after true [Construct 0 s; Construct 1 t] = Val h /\ range_of h 0 = Val r /\
    exists h', act true (Assign 0 1) h = Val h' /\ life_segments true r h' 9 = UB.
Proof. exists (L "/a"), (L "/a/b/c/d"), (two (L "/a") (L "/a/b/c/d")). eexists. split; [vm_compute; reflexivity|]. split; [vm_compute; reflexivity|]. eexists. split; [vm_compute; reflexivity|]. vm_compute. reflexivity. Qed.
Print Assumptions C109_beyond_refuted.
(** Iterators of a url_view and of a copy of it are never equal: a loop from the
    begin of one to the end of the other never gets there, although the two
    url_views are the same in every other respect. *)
Theorem C109_copies_partial :
  forall (d : bool) (h : objects) (x y : nat) (v : view) (a : uri) (r1 r2 : vrange),
    shown v a -> uri_query a = None \/ uri_path a = [] ->
    h x = Some v -> h y = Some v -> range_of h x = Val r1 -> range_of h y = Val r2 ->
    (x = y -> forall fuel, length (the_segments a) < fuel -> list_between d r1 r2 h fuel = Val (the_segments a)) /\
    (x <> y -> forall fuel l, list_between d r1 r2 h fuel <> Val l).
Proof. exact between. Qed.
Print Assumptions C109_copies_partial.
Theorem C109_copies_refuted :
  exists s h r1 r2, after true [Construct 0 s; Copy 1 0] = Val h /\ h 1 = h 0 /\ range_of h 0 = Val r1 /\ range_of h 1 = Val r2 /\
    list_between true r1 r1 h 9 = Val [L "a"; L "b"] /\ list_between true r1 r2 h 9 = Abort /\ list_between false r1 r2 h 999 = Hang.
Proof. exists (L "/a/b"), (two (L "/a/b") (L "/a/b")). do 2 eexists. split; [vm_compute; reflexivity|]. split; [vm_compute; reflexivity|]. split; [vm_compute; reflexivity|]. split; [vm_compute; reflexivity|]. split; [vm_compute; reflexivity|]. split; vm_compute; reflexivity. Qed.
Print Assumptions C109_copies_refuted.

(** ** C109 for parameters *)

(** As long as a url_view of the same text is there, the functions that look up a
    key are right, ... *)
Theorem C109_lookups_stay_partial :
  forall (d : bool) (x : nat) (s : str) (v : view) (a : uri) (h h' : objects) (r : vrange),
    make_url_view d s = Val v -> recompose a = s -> wf accepted a ->
    h x = Some v -> range_of h x = Val r -> keeps_text d x s h h' -> iterable a ->
    exists ds, decoded_params (params_of a) ds /\
      forall fuel key, length ds < fuel ->
        life_contains d r h' fuel key = Val (match lookup key ds with Some _ => true | None => false end) /\
        life_count d r h' fuel key = Val (occurrences key ds) /\
        life_index d r h' fuel key = Val (match lookup key ds with Some y => y | None => [] end) /\
        life_at d r h' fuel key = match lookup key ds with Some y => Val y | None => Exn out_of_range end.
Proof. exact lookups_stay. Qed.
Print Assumptions C109_lookups_stay_partial.
(** ... and iterators taken earlier are those one would take now. *)
Theorem C109_iterators_stay_partial :
  forall (d : bool) (x : nat) (s : str) (v : view) (a : uri) (h h' : objects) (r : vrange),
    make_url_view d s = Val v -> recompose a = s -> wf accepted a ->
    h x = Some v -> range_of h x = Val r -> keeps_text d x s h h' ->
    range_of h' x = Val r /\ vseg_begin d r h' = vseg_begin d r h /\ vseg_end d r h' = vseg_end d r h /\
    vpar_begin d r h' = vpar_begin d r h /\ vpar_end d r h' = vpar_end d r h /\
    forall fuel key, vpar_find d r h' fuel key = vpar_find d r h fuel key.
Proof. exact iterators_stay. Qed.
Print Assumptions C109_iterators_stay_partial.
Theorem C109_gone_params_partial :
  forall (d : bool) (r : vrange) (h : objects) (fuel : nat) (key : str),
    h (r_at r) = None ->
    life_contains d r h fuel key = UB /\ life_count d r h fuel key = UB /\ life_index d r h fuel key = UB /\ life_at d r h fuel key = UB /\
    vpar_begin d r h = UB /\ vpar_end d r h = UB /\ vpar_find d r h fuel key = UB.
Proof. exact gone_params. Qed.
Print Assumptions C109_gone_params_partial.

(** Comparing find() with end() tells whether a key is absent exactly if both come
    from the same url_view; a copy never says so, and a loop to its end() never
    ends. *)
Theorem C109_params_between_partial :
  forall (d : bool) (h : objects) (x y : nat) (v : view) (a : uri) (r1 r2 : vrange),
    shown v a -> iterable a ->
    h x = Some v -> h y = Some v -> range_of h x = Val r1 -> range_of h y = Val r2 ->
    (x = y -> exists ds, decoded_params (params_of a) ds /\ forall fuel, length (params_of a) < fuel ->
       list_params_between d r1 r2 h fuel = Val (params_of a) /\
       forall key, absent d r1 r2 h fuel key = Val (match lookup key ds with Some _ => false | None => true end)) /\
    (x <> y -> forall fuel, (forall l, list_params_between d r1 r2 h fuel <> Val l) /\
       forall key, length (params_of a) < fuel -> absent d r1 r2 h fuel key = Val false).
Proof. exact params_between. Qed.
Print Assumptions C109_params_between_partial.
Theorem C109_find_in_copy_refuted :
  exists s h r1 r2, after true [Construct 0 s; Copy 1 0] = Val h /\ h 1 = h 0 /\ range_of h 0 = Val r1 /\ range_of h 1 = Val r2 /\
    absent true r1 r1 h 9 (L "b") = Val true /\ absent true r1 r2 h 9 (L "b") = Val false /\
    list_params_between true r1 r1 h 9 = Val [(L "a", L "1")] /\ list_params_between true r1 r2 h 9 = Abort.
Proof.
  exists (L "?a=1"), (two (L "?a=1") (L "?a=1")). do 2 eexists. split; [vm_compute; reflexivity|]. split; [vm_compute; reflexivity|].
  split; [vm_compute; reflexivity|]. split; [vm_compute; reflexivity|]. split; [vm_compute; reflexivity|]. split; [vm_compute; reflexivity|]. split; vm_compute; reflexivity.
Qed.
Print Assumptions C109_find_in_copy_refuted.
