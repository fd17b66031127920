(** * PropertiesCopies: several pools, and copies of pools *)

From Verif Require Import Base ModelMisc SpecMisc ModelCopies SpecCopies ProofsCopies.

(** ** C89: who owns the memory of a pool *)

(** Any number of pools, used in any order, never copied: all blocks given out
    by all of them are pairwise disjoint, also those that were given back ... *)
Theorem C89_pools_share_nothing :
  forall (W : N) (l : list pact), placed W l -> no_copies l -> ForallOrdPairs disjoint (map snd (given (run_acts W l))).
Proof. exact pools_share_nothing. Qed.
Print Assumptions C89_pools_share_nothing.
(** ... and with copies, too, every block is inside the array of
    a pool that was created as such, that whose address the pool points to ... *)
Theorem C89_every_block_is_in_a_pool :
  forall (W : N) (l : list pact), placed W l ->
    Forall (fun g => exists size, In (Make (fst g) size) l /\ within (fst g) size (snd g)) (given (run_acts W l)).
Proof. exact copies_in_buffers. Qed.
Print Assumptions C89_every_block_is_in_a_pool.
(** ... and blocks from different such arrays are disjoint. *)
Theorem C89_different_arrays_share_nothing :
  forall (W : N) (l : list pact), placed W l ->
    ForallOrdPairs (fun g h => fst g <> fst h -> disjoint (snd g) (snd h)) (given (run_acts W l)).
Proof. exact copies_apart. Qed.
Print Assumptions C89_different_arrays_share_nothing.
(** But a copy does not use its own array: after any program, if a pool with
    room for n characters is copied, it and the copy give out the same block. *)
Theorem C89_copy_gives_out_the_same_block :
  forall (W : N) (l : list pact) (i : nat) (buf n : N) (o : object), placed W l ->
    nth_error (objects (run_acts W l)) i = Some o -> (n < W)%N -> (p_top (o_pool o) + n <= p_base (o_pool o) + p_capacity (o_pool o))%N ->
    exists u, given (run_acts W (l ++ [Copy i buf; Take i n; Take (length (objects (run_acts W l))) n])) =
      (p_base (o_pool o), (u, n)) :: (p_base (o_pool o), (u, n)) :: given (run_acts W l).
Proof. exact copy_collides. Qed.
Print Assumptions C89_copy_gives_out_the_same_block.
Example C89_example :
  placed (2 ^ 64) [Make 4096 64; Make 8192 64; Take 0 10; Take 1 20; Give_back 0 4096 10; Take 0 60; Take 0 30]%N /\
  no_copies [Make 4096 64; Make 8192 64; Take 0 10; Take 1 20; Give_back 0 4096 10; Take 0 60; Take 0 30]%N /\
  given (run_acts (2 ^ 64) [Make 4096 64; Make 8192 64; Take 0 10; Take 1 20; Give_back 0 4096 10; Take 0 60; Take 0 30]%N) =
    [(4096, (4106, 30)); (8192, (8192, 20)); (4096, (4096, 10))]%N.
Proof.
  split; [split|split].
  - vm_compute. repeat constructor; discriminate.
  - repeat constructor.
  - repeat constructor.
  - vm_compute. reflexivity.
Qed.
(** So blocks are not disjoint when pools are copied. *)
Theorem C89_copies_refuted :
  exists l : list pact, placed (2 ^ 64) l /\ ~ ForallOrdPairs disjoint (map snd (given (run_acts (2 ^ 64) l))).
Proof.
  exists [Make 4096 64; Copy 0 8192; Take 0 10; Take 1 10]%N. split; [split|].
  - vm_compute. repeat constructor; discriminate.
  - repeat constructor.
  - vm_compute. intros H. inversion H as [|x y F G]; subst. inversion F as [|x y K M]; subst. destruct K as [K|K]; apply K; reflexivity.
Qed.
Print Assumptions C89_copies_refuted.
