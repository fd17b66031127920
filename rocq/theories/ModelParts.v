(** * ModelParts: model of include/boost/url/detail/parts.hpp

    Line numbers refer to that file unless another file is named. *)

From Verif Require Import Base ModelChar.

(** include/boost/url/host_type.hpp:20-38 *)
Inductive host_type := host_none | host_name | host_ipv4 | host_ipv6.

Definition host_type_eqb (a b : host_type) : bool :=
  match a, b with
  | host_none, host_none | host_name, host_name
  | host_ipv4, host_ipv4 | host_ipv6, host_ipv6 => true
  | _, _ => false
  end.

(** parts.hpp:21-32, the part identifiers. *)
Definition id_scheme := 0.
Definition id_user := 1.
Definition id_password := 2.
Definition id_host := 3.
Definition id_port := 4.
Definition id_path := 5.
Definition id_query := 6.
Definition id_frag := 7.
Definition id_end := 8.

(** parts.hpp:36-49 struct [parts].  [offset] always has nine entries (a fixed
    size array in the code); the identifiers are compile-time constants. *)
Record parts := mk_parts {
  offset : list nat;
  nseg : nat;
  nparam : nat;
  host : host_type
}.

(** parts.hpp:44-49 default constructor. *)
Definition parts0 : parts := mk_parts (repeat 0 9) 0 0 host_none.

(** [pt.offset[i]] *)
Definition off (pt : parts) (i : nat) : nat := nth i (offset pt) 0.

(** parts.hpp:51-57 [length(id)] and 59-68 [length(begin, end)].
    Simplification: size_t wrap-around of the difference is not modelled
    (truncated subtraction); offsets are proved ordered in every reachable
    state, so the difference is exact. The two BOOST_ASSERTs compare
    compile-time constants and are omitted. *)
Definition plength (pt : parts) (id : nat) : nat := off pt (id + 1) - off pt id.
Definition plength2 (pt : parts) (b e : nat) : nat := off pt e - off pt b.

(** parts.hpp:91-101 [resize(id, n)]: adds [n - length(id)] (modulo 2^64) to
    every offset above [id].  [None] if a resulting offset would be negative,
    i.e. would wrap around; callers turn that into [UB]. *)
Definition presize (pt : parts) (id n : nat) : option parts :=
  let n0 := plength pt id in
  if forallb (fun o => n0 <=? o + n) (skipn (id + 1) (offset pt)) then
    Some (mk_parts
            (firstn (id + 1) (offset pt)
             ++ map (fun o => o + n - n0) (skipn (id + 1) (offset pt)))
            (nseg pt) (nparam pt) (host pt))
  else None.

(** parts.hpp:110-111, the assignment in [split(id, n)]:
    offset[id+1] = offset[id] + n.  The assertions (108-109) are modelled at
    the call sites by [url_split] (ModelUrl.v). *)
Definition psplit (pt : parts) (id n : nat) : parts :=
  mk_parts
    (firstn (id + 1) (offset pt) ++ [off pt id + n] ++ skipn (id + 2) (offset pt))
    (nseg pt) (nparam pt) (host pt).

(** Field updates. *)
Definition set_nseg (pt : parts) (n : nat) : parts :=
  mk_parts (offset pt) n (nparam pt) (host pt).
Definition set_nparam (pt : parts) (n : nat) : parts :=
  mk_parts (offset pt) (nseg pt) n (host pt).
Definition set_host_type (pt : parts) (h : host_type) : parts :=
  mk_parts (offset pt) (nseg pt) (nparam pt) h.
