(** * SpecStore: which memory contents represent a URL, and when there is room

    [rep ts u] is the representation relation between a mutable URL and its
    eight part texts.  [room] says whether a new total size can be stored. *)

From Verif Require Import Base ModelChar ModelParts ModelView ModelUrl SpecChar SpecGrammar SpecLink.

(** A URL with buffer [cs ++ rest], [cs] being the characters below size(). *)
Definition st (cs rest : list cell) (sz cap k : nat) (offs : list nat) (ns np : nat) (h : host_type) : url :=
  mk_url (mk_storage (Some (cs ++ rest)) sz cap k) (mk_parts offs ns np h) (Some k).
(** No buffer yet. *)
Definition nullu (offs : list nat) (ns np : nat) (h : host_type) : url :=
  mk_url (mk_storage None 0 0 0) (mk_parts offs ns np h) None.

Definition sized (cs rest : list cell) (sz cap : nat) : Prop :=
  length cs + length rest = cap + 1 /\ length cs <= sz <= cap.
Definition nul_first (rest : list cell) : Prop := exists r, rest = Some NUL :: r.

(** Contract of the allocator: a successful allocation has at most max_size()
    bytes. *)
Definition env_ok (E : env) : Prop := forall k n, alloc_ok E k n = true -> n <= max_size E.

Definition new_cap (E : env) (cap n : nat) : nat :=
  if cap <? max_size E - cap then (let c := 2 * cap in if c <? n then n else c) else max_size E.
(** Is there room for [n] characters? *)
Definition fits (E : env) (u : url) (n : nat) : bool :=
  (n <=? st_cap (u_st u)) || alloc_ok E (st_allocs (u_st u)) (new_cap E (st_cap (u_st u)) n + 1).
Definition room (E : env) (u : url) (n : nat) : bool :=
  (n <=? usize u) || ((n <=? size_max E) && fits E u n).

(** What a reallocation does to capacity and buffer number. *)
Definition cap_after (E : env) (cap n : nat) : nat := if n <=? cap then cap else new_cap E cap n.
Definition k_after (cap k n : nat) : nat := if n <=? cap then k else S k.

(** [rep ts u]: the parts of [u] are the texts [ts]. *)
Inductive rep (ts : list str) : url -> Prop :=
| rep_null ns np h : concat ts = [] -> length ts = 8 -> rep ts (nullu (bounds 0 ts) ns np h)
| rep_buf rest sz cap k ns np h : length ts = 8 -> sized (map Some (concat ts)) rest sz cap ->
    rep ts (st (map Some (concat ts)) rest sz cap k (bounds 0 ts) ns np h).

(** There is a zero byte behind the last character. *)
Definition terminated (u : url) : Prop :=
  exists b, live_buf u = Some b /\ nth_error b (usize u) = Some (Some NUL).

Definition no_room (e : exn) : Prop := e = too_large \/ e = bad_alloc.
