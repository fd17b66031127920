(** * ModelShare: a static_url made from a url, and copies of a url_base

    Models include/boost/url/static_url.hpp and the implicit copy constructor
    of url_base (url_base.hpp:46-53).  The other constructors of static_url
    cannot be used: url_base has no default constructor, and its own two
    constructors need a detail::storage. *)

From Verif Require Import Base ModelChar ModelParts ModelView ModelUrl.

(** Two objects with one storage.  url_base.hpp:51: the member a_ is a
    reference, so it is the same storage in both; pt_ and s_ are separate. *)
Record shared := mk_shared {
  sh_st : storage;
  sh_pt1 : parts; sh_s1 : option nat;
  sh_pt2 : parts; sh_s2 : option nat
}.

(** static_url.hpp:28-35: [static_url<N> c(u)] forwards [u] to the base class;
    that is the implicit copy constructor of url_base, which copies a_, pt_ and
    s_.  The array buf_ (line 25) is not used.  The same happens to a url_base
    parameter passed by value. *)
Definition share (u : url) : shared := mk_shared (u_st u) (u_pt u) (u_s u) (u_pt u) (u_s u).

(** The two objects, each with its own members and the common storage. *)
Definition original (w : shared) : url := mk_url (sh_st w) (sh_pt1 w) (sh_s1 w).
Definition duplicate (w : shared) : url := mk_url (sh_st w) (sh_pt2 w) (sh_s2 w).

(** A member function called on either of them. *)
Definition on_original {A} (f : U A) (w : shared) : outcome A * shared :=
  let (r, u) := f (original w) in (r, mk_shared (u_st u) (u_pt u) (u_s u) (sh_pt2 w) (sh_s2 w)).
Definition on_duplicate {A} (f : U A) (w : shared) : outcome A * shared :=
  let (r, u) := f (duplicate w) in (r, mk_shared (u_st u) (sh_pt1 w) (sh_s1 w) (u_pt u) (u_s u)).

(** static_url.hpp:43-49 [operator=]: nothing. *)
Definition static_assign (self other : url) : url := self.
