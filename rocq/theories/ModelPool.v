(** * ModelPool: several urls that allocate from one static_pool

    Combines basic_url.hpp with static_pool.hpp: the urls are of type
    basic_url<basic_static_pool::allocator_type<char>>, all constructed with
    [pool.allocator()]. *)

From Verif Require Import Base ModelChar ModelParts ModelView ModelUrl ModelMisc.

Definition succeeds {A} (o : outcome A) : bool := match o with Val _ => true | _ => false end.

Section Pool.
(** The number of values of std::size_t, and the largest size of a url. *)
Variable W : N.
Variable largest : nat.

(** What one call on a url sees: max_size() is the default of
    std::allocator_traits, the largest std::size_t (static_pool.hpp has none);
    an allocation succeeds if it does in the pool (static_pool.hpp:28-45,
    98-105).  This is the answer to the first allocation of the call; a call
    makes no second one (C82_one_allocation, C91_one_allocation).  Requests of [W] bytes or more do
    not exist. *)
Definition pool_env (d : bool) (p : pool) : env :=
  mk_env d largest (N.to_nat (W - 1)) (fun _ n => (N.of_nat n <? W)%N && succeeds (fst (pool_allocate_n W 1 1 (N.of_nat n) p))).

(** A url and the address of its buffer (meaningless as long as it has none). *)
Record placed := mk_placed { pl_url : url; pl_at : N }.
(** The pool, the urls, and all blocks handed out so far, latest first. *)
Record world := mk_world { w_pool : pool; w_urls : list placed; w_given : list (N * N) }.

Fixpoint put_at {A} (i : nat) (x : A) (l : list A) : list A :=
  match l, i with
  | [], _ => []
  | _ :: l', 0 => x :: l'
  | y :: l', S i' => y :: put_at i' x l'
  end.

(** A pool with [k] default-constructed urls (basic_url.hpp:48-54). *)
Definition new_world (base cap : N) (k : nat) : world :=
  mk_world (new_pool base cap) (repeat (mk_placed url0 0%N) k) [].

(** storage.hpp:81-89, static_pool.hpp:107-115: the old buffer of a url, if it has
    one, is returned to the pool. *)
Definition return_old (x : placed) (p : pool) : pool :=
  match st_buf (u_st (pl_url x)) with
  | None => p
  | Some _ => pool_deallocate (pl_at x) (N.of_nat (st_cap (u_st (pl_url x)) + 1)) 1 p
  end.
(** The call [f] of a modifier on url number [i].  If the url has a new buffer
    afterwards, the pool has given it out, and then got back the old one. *)
Definition call_on (f : env -> url -> outcome unit * url) (d : bool) (i : nat) (w : world) : outcome unit * world :=
  match nth_error (w_urls w) i with
  | None => (UB, w)
  | Some x =>
      let '(r, u) := f (pool_env d (w_pool w)) (pl_url x) in
      if st_allocs (u_st u) =? st_allocs (u_st (pl_url x))
      then (r, mk_world (w_pool w) (put_at i (mk_placed u (pl_at x)) (w_urls w)) (w_given w))
      else
        let n := N.of_nat (st_cap (u_st u) + 1) in
        match pool_allocate_n W 1 1 n (w_pool w) with
        | (Val p, pool') => (r, mk_world (return_old x pool') (put_at i (mk_placed u p) (w_urls w)) ((p, n) :: w_given w))
        | (_, pool') => (UB, mk_world pool' (w_urls w) (w_given w))
        end
  end.
End Pool.
