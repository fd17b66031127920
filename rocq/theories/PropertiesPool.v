(** * PropertiesPool: several urls that allocate from one static_pool

    [program W largest d ok (new_world base cap k) w]: [w] results from a pool of
    [cap] bytes at [base] with [k] empty urls by any finite sequence of modifiers
    on them. *)

From Verif Require Import Base ModelChar ModelParts ModelView ModelUrl ModelMisc ModelPool SpecChar SpecGrammar SpecLink SpecView SpecStore SpecUrl SpecHistory
  SpecSetters SpecMisc SpecPool ProofsHistory ProofsPool.

(** ** C82: the urls of a pool do not disturb each other *)

(** All memory handed out lies in the pool and no two blocks of it overlap; the
    buffer of every url is such a block, and those of two urls are disjoint. *)
Theorem C82_buffers_are_private :
  forall (W base cap : N) (largest : nat) (d : bool) (ok : nat -> url -> Prop) (k : nat) (w : world),
    in_memory W base cap -> program W largest d ok (new_world base cap k) w ->
    Forall (within base cap) (w_given w) /\ ForallOrdPairs disjoint (w_given w) /\
    (forall i x, nth_error (w_urls w) i = Some x -> has_buffer x -> In (buffer_of x) (w_given w)) /\
    (forall i j x y, i <> j -> nth_error (w_urls w) i = Some x -> nth_error (w_urls w) j = Some y -> has_buffer x -> has_buffer y ->
       disjoint (buffer_of x) (buffer_of y)).
Proof. exact pool_urls. Qed.
Print Assumptions C82_buffers_are_private.
(** A call returns, or throws and leaves everything as it was, the pool included.
    It does to the url what it would do to it alone; a new buffer was never given
    out before; the other urls stay the same. *)
Theorem C82_calls :
  forall (W base cap : N) (largest : nat) (d : bool) (ok : nat -> url -> Prop) (k : nat) (w : world) (i : nat) (x : placed) (o : op)
         (r : outcome unit) (w' : world),
    in_memory W base cap -> program W largest d ok (new_world base cap k) w ->
    nth_error (w_urls w) i = Some x -> arg_ok o -> (forall a, rep (part_texts a) (pl_url x) -> ~ breaks d o a) ->
    call_on W largest (fun E => run E o) d i w = (r, w') ->
    (r = Val tt \/ exists e, r = Exn e /\ w' = w) /\
    (forall x', nth_error (w_urls w') i = Some x' -> run (pool_env W largest d (w_pool w)) o (pl_url x) = (r, pl_url x') /\
       (pl_at x' = pl_at x \/ In (buffer_of x') (w_given w') /\ ~ In (buffer_of x') (w_given w))) /\
    (forall j, j <> i -> nth_error (w_urls w') j = nth_error (w_urls w) j).
Proof. exact pool_calls. Qed.
Print Assumptions C82_calls.
(** A call allocates at most once, and then at least twice the capacity. *)
Theorem C82_one_allocation :
  forall (E : env) (o : op) (a : uri) (u : url) (r : outcome unit) (u' : url),
    env_ok E -> arg_ok o -> rep (part_texts a) u -> ~ breaks (dbg E) o a -> run E o u = (r, u') ->
    (st_allocs (u_st u') = st_allocs (u_st u) /\ st_cap (u_st u') = st_cap (u_st u)) \/
    (st_allocs (u_st u') = S (st_allocs (u_st u)) /\ alloc_ok E (st_allocs (u_st u)) (st_cap (u_st u') + 1) = true /\
     2 * st_cap (u_st u) <= st_cap (u_st u')).
Proof. exact one_allocation. Qed.
Print Assumptions C82_one_allocation.

(** Two urls in a pool of 64 bytes at address 256: after four calls "http://a.b"
    is at 265 and "/p?k=v" at 276. *)
Definition ex_calls : list (nat * op) :=
  [(0, Set_host (L "a.b")); (1, Set_encoded_path (L "/p")); (0, Set_scheme (L "http")); (1, Set_query (L "k=v"))].
Definition ex_world : world :=
  match run_all 2048 1000 true (fun i u => usize u <=? nth i [14; 6] 0) ex_calls (new_world 256 112 2) with Some w => w | None => new_world 0 0 0 end.
Lemma ex_world_program : program 2048 1000 true (at_most [14; 6]) (new_world 256 112 2) ex_world.
Proof.
  apply run_all_program with (check := fun i u => usize u <=? nth i [14; 6] 0) (l := ex_calls) (w := new_world 256 112 2).
  - intros i u H. apply Nat.leb_le. exact H.
  - apply program_start.
  - repeat constructor; cbn; intros a H; exact H.
  - vm_compute. reflexivity.
Qed.
Example C82_example :
  program 2048 1000 true (at_most [14; 6]) (new_world 256 112 2) ex_world /\ in_memory 2048 256 112 /\
  w_given ex_world = [(276, 7); (265, 11); (262, 3); (256, 6)]%N /\
  map (fun x => (buffer_of x, encoded_url (view_of (pl_url x)))) (w_urls ex_world) =
    [((265, 11)%N, Val (L "http://a.b")); ((276, 7)%N, Val (L "/p?k=v"))].
Proof. split; [exact ex_world_program|]. split; [split; reflexivity|]. split; vm_compute; reflexivity. Qed.

(** ** C83: a pool that is large enough *)

(** Any number of urls and calls: as long as url number [i] stays at or below
    [n_i] characters, a pool of the sum of [5 n_i + 6] bytes never runs out.  A
    call the grammar and the URL allow then always returns. *)
Theorem C83_pool_suffices :
  forall (W base cap : N) (largest : nat) (d : bool) (ns : list nat),
    in_memory W base cap ->
    forall (w : world) (i : nat) (x : placed) (o : op) (a : uri),
    program W largest d (at_most ns) (new_world base cap (length ns)) w -> (N.of_nat (enough_for ns) <= cap)%N ->
    nth_error (w_urls w) i = Some x -> arg_ok o -> rep (part_texts a) (pl_url x) -> ~ misbehaves d o a ->
    (exists a', step o a a') ->
    (forall a', step o a a' -> length (recompose a') <= nth i ns 0 /\ length (recompose a') + 2 <= largest) ->
    fst (call_on W largest (fun E => run E o) d i w) = Val tt.
Proof. exact pool_enough. Qed.
Print Assumptions C83_pool_suffices.
Definition ex_pool_uri : uri :=
  mk_uri (Some (L "http")) (Some (mk_authority None (L "a.b") None)) [] None None.
Example C83_example :
  program 2048 1000 true (at_most [14; 6]) (new_world 256 112 2) ex_world /\ (N.of_nat (enough_for [14%nat; 6%nat]) <= 112)%N /\
  rep (part_texts ex_pool_uri) (pl_url (nth 0 (w_urls ex_world) (mk_placed url0 0%N))) /\
  (exists a', step (Set_fragment (L "xyz")) ex_pool_uri a') /\
  (forall a', step (Set_fragment (L "xyz")) ex_pool_uri a' -> length (recompose a') <= 14 /\ length (recompose a') + 2 <= 1000) /\
  fst (call_on 2048 1000 (fun E => run E (Set_fragment (L "xyz"))) true 0 ex_world) = Val tt.
Proof.
  split; [exact ex_world_program|]. split; [vm_compute; discriminate|]. split; [|split; [|split]].
  - exact (rep_buf (part_texts ex_pool_uri) [Some NUL] 10 10 2 0 0 host_name eq_refl ltac:(vm_compute; repeat constructor)).
  - eexists. reflexivity.
  - intros a' ->. vm_compute. repeat constructor.
  - vm_compute. reflexivity.
Qed.
(** The sum of the lengths with their null characters is not enough: buffers are
    never reused. *)
Definition ex_small : world :=
  match run_all 2048 1000 true (fun i u => usize u <=? nth i [10] 0) [(0, Set_host (L "a.b"))] (new_world 256 16 1) with Some w => w | None => new_world 0 0 0 end.
Definition ex_small_uri : uri := mk_uri None (Some (mk_authority None (L "a.b") None)) [] None None.
Theorem C83_text_size_refuted :
  exists (w : world) (o : op) (a a' : uri) (x : placed),
    program 2048 1000 true (at_most [10]) (new_world 256 16 1) w /\ nth_error (w_urls w) 0 = Some x /\ rep (part_texts a) (pl_url x) /\
    step o a a' /\ length (recompose a') = 10 /\
    fst (call_on 2048 1000 (fun E => run E o) true 0 w) = Exn bad_alloc.
Proof.
  exists ex_small, (Set_fragment (L "wxyz")), ex_small_uri, (with_fragment (Some (L "wxyz")) ex_small_uri), (nth 0 (w_urls ex_small) (mk_placed url0 0%N)).
  split; [|split; [reflexivity|split; [|split; [|split]]]].
  - apply run_all_program with (check := fun i u => usize u <=? nth i [10] 0) (l := [(0, Set_host (L "a.b"))]) (w := new_world 256 16 1).
    + intros i u H. apply Nat.leb_le. exact H.
    + apply program_start.
    + repeat constructor; cbn; intros a H; exact H.
    + vm_compute. reflexivity.
  - exact (rep_buf (part_texts ex_small_uri) [None] 5 5 1 0 0 host_name eq_refl ltac:(vm_compute; repeat constructor)).
  - vm_compute. reflexivity.
  - vm_compute. reflexivity.
  - vm_compute. reflexivity.
Qed.
Print Assumptions C83_text_size_refuted.
