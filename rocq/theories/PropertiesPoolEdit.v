(** * PropertiesPoolEdit: modifiers and segment edits of several urls in one static_pool

    [edit_program W largest d ok (new_world base cap k) w]: [w] results from a
    pool of [cap] bytes at [base] with [k] empty urls by any finite sequence of
    modifiers and segment edits on them. *)

From Verif Require Import Base ModelChar ModelParts ModelView ModelUrl ModelMisc ModelPool SpecChar SpecGrammar SpecLink SpecView SpecStore SpecUrl SpecHistory
  SpecSetters SpecSegments SpecMixed SpecMisc SpecPool SpecPoolEdit ProofsHistory ProofsPool ProofsPoolEdit.

(** ** C91: segment edits in a pool *)

(** All memory handed out lies in the pool and no two blocks of it overlap; the
    buffer of every url is such a block, and those of two urls are disjoint. *)
Theorem C91_buffers_are_private :
  forall (W base cap : N) (largest : nat) (d : bool),
    in_memory W base cap ->
    forall (ok : nat -> url -> Prop) (k : nat) (w : world),
    edit_program W largest d ok (new_world base cap k) w ->
    Forall (within base cap) (w_given w) /\ ForallOrdPairs disjoint (w_given w) /\
    (forall i x, nth_error (w_urls w) i = Some x -> has_buffer x -> In (buffer_of x) (w_given w)) /\
    (forall i j x y, i <> j -> nth_error (w_urls w) i = Some x -> nth_error (w_urls w) j = Some y -> has_buffer x -> has_buffer y ->
       disjoint (buffer_of x) (buffer_of y)).
Proof. exact edit_pool_urls. Qed.
Print Assumptions C91_buffers_are_private.
(** An action returns, or throws and leaves everything as it was, the pool
    included, or is an edit whose assertion fires in a debug build.  It does to
    the url what it would do to it alone; a new buffer was never given out
    before; the other urls stay the same. *)
Theorem C91_actions :
  forall (W base cap : N) (largest : nat) (d : bool),
    in_memory W base cap ->
    forall (ok : nat -> url -> Prop) (k : nat) (w : world) (i : nat) (x : placed) (c : action) (r : outcome unit) (w' : world),
    edit_program W largest d ok (new_world base cap k) w ->
    nth_error (w_urls w) i = Some x -> allowed d c (pl_url x) -> call_on W largest (fun E => perform E c) d i w = (r, w') ->
    (r = Val tt \/ (exists e, r = Exn e /\ w' = w) \/ (r = Abort /\ d = true /\ exists e, c = Edit e)) /\
    (exists x', nth_error (w_urls w') i = Some x' /\ perform (pool_env W largest d (w_pool w)) c (pl_url x) = (r, pl_url x') /\
       (pl_at x' = pl_at x \/ In (buffer_of x') (w_given w') /\ ~ In (buffer_of x') (w_given w))) /\
    (forall j, j <> i -> nth_error (w_urls w') j = nth_error (w_urls w) j).
Proof. exact edit_pool_calls. Qed.
Print Assumptions C91_actions.
(** An edit allocates at most once, and only if the capacity is below what it
    needs; the new capacity is twice the old one or what it needs. *)
Theorem C91_one_allocation :
  forall (E : env) (e : edit) (u : url) (a : uri) (r : outcome seg_it) (u' : url),
    env_ok E -> usable u a -> in_range e a -> run_edit E e u = (r, u') ->
    (st_allocs (u_st u') = st_allocs (u_st u) /\ st_cap (u_st u') = st_cap (u_st u)) \/
    (st_allocs (u_st u') = S (st_allocs (u_st u)) /\ alloc_ok E (st_allocs (u_st u)) (st_cap (u_st u') + 1) = true /\
     st_cap (u_st u) < edit_need e u a /\ st_cap (u_st u') = Nat.max (2 * st_cap (u_st u)) (edit_need e u a)).
Proof. exact edit_once. Qed.
Print Assumptions C91_one_allocation.
(** Any number of urls and actions: as long as url number [i] stays at or below
    [n_i] characters, a pool of the sum of [9 n_i + 7] bytes never runs out. *)
Theorem C91_pool_suffices :
  forall (W base cap : N) (largest : nat) (d : bool),
    in_memory W base cap ->
    forall (ns : list nat) (w : world) (i : nat) (x : placed) (c : action) (a : uri),
    edit_program W largest d (at_most ns) (new_world base cap (length ns)) w -> (N.of_nat (enough_to_edit ns) <= cap)%N ->
    nth_error (w_urls w) i = Some x -> rep (part_texts a) (pl_url x) -> works d c a (pl_url x) ->
    (exists a', result c a a') ->
    (forall a', result c a a' -> length (recompose a') <= nth i ns 0 /\ length (recompose a') + 2 <= largest) ->
    fst (call_on W largest (fun E => perform E c) d i w) = Val tt.
Proof. exact edit_pool_enough. Qed.
Print Assumptions C91_pool_suffices.

(** ** Examples *)

(** "/", longer and longer fragments, none: the storage still counts 20
    characters when the segment is replaced. *)
Definition x18 : str := L "abcdefghijklmnopqr".
Definition ex_grow : list (nat * op) :=
  [(0, Set_encoded_url (L "/")); (1, Set_host (L "h")); (0, Set_fragment (firstn 7 x18)); (0, Set_fragment (firstn 8 x18)); (0, Set_fragment x18);
   (0, Set_fragment_part [])].
Definition ex_check (i : nat) (u : url) : bool := usize u <=? nth i [20; 3] 0.
Definition ex_grown (cap : N) : world :=
  match run_all 2048 1000 false ex_check ex_grow (new_world 256 cap 2) with Some w => w | None => new_world 0 0 0 end.
Definition ex_slash : uri := mk_uri None None (L "/") None None.
Definition ex_edit : edit := Replace 0 (x18 ++ L "s").
Definition ex_first (cap : N) : placed := nth 0 (w_urls (ex_grown cap)) (mk_placed url0 0%N).
Lemma ex_grown_program cap : cap = 221%N \/ cap = 127%N -> edit_program 2048 1000 false (at_most [20; 3]) (new_world 256 cap 2) (ex_grown cap).
Proof.
  intros Hc. apply program_edit; [destruct Hc as [-> | ->]; split; reflexivity|].
  apply run_all_program with (check := ex_check) (l := ex_grow) (w := new_world 256 cap 2).
  - intros i u H. apply Nat.leb_le. exact H.
  - apply program_start.
  - repeat constructor; cbn; intros a H; exact H.
  - destruct Hc as [-> | ->]; vm_compute; reflexivity.
Qed.
Definition ex_rest : list (option char) := Some NUL :: map Some x18 ++ Some NUL :: repeat None 16.
Lemma ex_grown_works cap : cap = 221%N \/ cap = 127%N ->
  nth_error (w_urls (ex_grown cap)) 0 = Some (ex_first cap) /\ works false (Edit ex_edit) ex_slash (pl_url (ex_first cap)).
Proof.
  intros Hc. split; [destruct Hc as [-> | ->]; vm_compute; reflexivity|]. split; [|split; [|split; [discriminate|intros (K & _); discriminate]]].
  - split; [| | |discriminate].
    + destruct Hc as [-> | ->]; exact (rep_buf (part_texts ex_slash) ex_rest 20 36 4 1 0 host_none eq_refl ltac:(vm_compute; repeat constructor)).
    + destruct Hc as [-> | ->]; split; vm_compute; reflexivity.
    + destruct Hc as [-> | ->]; eexists; split; vm_compute; reflexivity.
  - split; [vm_compute; repeat constructor|left; reflexivity].
Qed.
(** With the sum of [9 n + 7] bytes the replacement gets the block of 73 bytes. *)
Example C91_example :
  edit_program 2048 1000 false (at_most [20; 3]) (new_world 256 221 2) (ex_grown 221) /\ in_memory 2048 256 221 /\
  (N.of_nat (enough_to_edit [20%nat; 3%nat]) <= 221)%N /\ nth_error (w_urls (ex_grown 221)) 0 = Some (ex_first 221) /\
  works false (Edit ex_edit) ex_slash (pl_url (ex_first 221)) /\ (exists a', result (Edit ex_edit) ex_slash a') /\
  (forall a', result (Edit ex_edit) ex_slash a' -> length (recompose a') = 20) /\
  (let w' := snd (call_on 2048 1000 (fun E => perform E (Edit ex_edit)) false 0 (ex_grown 221)) in
   w_given w' = [(328, 73); (291, 37); (272, 19); (262, 10); (258, 4); (256, 2)]%N /\
   map (fun x => (pl_at x, encoded_url (view_of (pl_url x)))) (w_urls w') = [(328%N, Val (L "/abcdefghijklmnopqrs")); (258%N, Val (L "//h"))]).
Proof.
  split; [apply ex_grown_program; auto|]. split; [split; reflexivity|]. split; [vm_compute; discriminate|].
  destruct (ex_grown_works 221 (or_introl eq_refl)) as (H1 & H2). split; [exact H1|]. split; [exact H2|]. split; [eexists; split; [exact I|reflexivity]|].
  split; [intros a' (_ & ->); vm_compute; reflexivity|]. split; vm_compute; reflexivity.
Qed.
(** The sum of [5 n + 6] bytes, which is enough for modifiers (C83), is not enough
    for edits: [replace] asks for room beyond the size the storage counts (base.ipp:1472,
    1493), which modifiers that shorten the url leave as it was. *)
Theorem C91_modifiers_bound_refuted :
  exists (w : world) (x : placed) (e : edit) (a a' : uri),
    in_memory 2048 256 127 /\ (N.of_nat (enough_for [20%nat; 3%nat]) <= 127)%N /\
    edit_program 2048 1000 false (at_most [20; 3]) (new_world 256 127 2) w /\ nth_error (w_urls w) 0 = Some x /\
    works false (Edit e) a (pl_url x) /\ result (Edit e) a a' /\ length (recompose a') = 20 /\
    fst (call_on 2048 1000 (fun E => perform E (Edit e)) false 0 w) = Exn bad_alloc.
Proof.
  destruct (ex_grown_works 127 (or_intror eq_refl)) as (H1 & H2).
  exists (ex_grown 127), (ex_first 127), ex_edit, ex_slash, (with_segments (list_edit ex_edit (the_segments ex_slash)) ex_slash).
  split; [split; reflexivity|]. split; [vm_compute; discriminate|]. split; [apply ex_grown_program; auto|]. split; [exact H1|]. split; [exact H2|].
  split; [split; [exact I|reflexivity]|]. split; vm_compute; reflexivity.
Qed.
Print Assumptions C91_modifiers_bound_refuted.
