(** * ModelCopies: programs with several static_pool objects

    Models static_pool<N> as a whole object (include/boost/url/static_pool.hpp):
    the base class with its three members (ModelMisc [pool]) and the array
    buf_, of which only the address matters here.  Objects are not destroyed. *)

From Verif Require Import Base ModelMisc.

(** static_pool.hpp:146-157: [o_buf] is the address of buf_. *)
Record object := mk_object { o_buf : N; o_pool : pool }.

(** static_pool.hpp:152-156 static_pool(): the base class gets its own array. *)
Definition make (buf size : N) : object := mk_object buf (new_pool buf size).

(** The implicit copy constructor (none is declared, static_pool.hpp:19-157):
    base_, capacity_ and top_ are copied as they are, so they go on pointing to
    the array of the original; the bytes of buf_ are copied to the new object's
    own array, which nothing points to. *)
Definition copy_of (buf : N) (o : object) : object := mk_object buf (o_pool o).

(** static_pool.hpp:107-115: allocator().deallocate(p, n) for char.  (There is no
    copy assignment, since base_ and capacity_ are const.) *)
Definition give_back_chars (W ptr n : N) (o : object) : object :=
  mk_object (o_buf o) (pool_deallocate ptr ((n * 1) mod W)%N 1 (o_pool o)).

(** static_pool.hpp:98-105: allocator().allocate(n) for char. *)
Definition take_chars (W n : N) (o : object) : outcome N * object :=
  let '(r, p) := pool_allocate_n W 1 1 n (o_pool o) in (r, mk_object (o_buf o) p).
