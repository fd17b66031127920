(** * SpecMisc: schemes, pool allocation, allocator calls *)

From Verif Require Import Base ModelChar ModelParts ModelView ModelUrl ModelMisc SpecChar SpecGrammar SpecStore SpecUrl.

(** ** Schemes *)

(** The special schemes and their names (scheme.hpp:45-49). *)
Definition scheme_name (k : scheme) : option str :=
  match k with
  | sch_ftp => Some (L "ftp") | sch_file => Some (L "file") | sch_http => Some (L "http")
  | sch_https => Some (L "https") | sch_ws => Some (L "ws") | sch_wss => Some (L "wss")
  | sch_unknown => None
  end.
(** Equality ignoring the case of ASCII letters. *)
Definition same_ignoring_case (s t : str) : Prop := map lower s = map lower t.
Definition special (s : str) : Prop := exists k n, scheme_name k = Some n /\ same_ignoring_case s n.
Definition ascii_text (s : str) : Prop := Forall (fun c => nat_of_ascii c < 128) s.

(** ** Pool allocation *)

(** A block is its first address and its size. *)
Definition block : Type := (N * N)%type.
Definition within (base cap : N) (b : block) : Prop := (base <= fst b /\ fst b + snd b <= base + cap)%N.
Definition disjoint (a b : block) : Prop := (fst a + snd a <= fst b \/ fst b + snd b <= fst a)%N.
Definition aligned (align : N) (b : block) : Prop := (fst b mod align = 0)%N.

(** The blocks obtained by requests (bytes, alignment), latest first; failing
    requests are skipped. *)
Fixpoint requests (W : N) (rs : list (N * N)) (p : pool) (got : list block) : list block * pool :=
  match rs with
  | [] => (got, p)
  | (bytes, align) :: rs' =>
      match pool_allocate W bytes align p with
      | (Val u, p') => requests W rs' p' ((u, bytes) :: got)
      | (_, p') => requests W rs' p' got
      end
  end.

(** The same, with blocks given back in between: [Get bytes align] is a request,
    [Give ptr bytes align] is deallocate(). *)
Inductive pool_call := Get (bytes align : N) | Give (ptr bytes align : N).
Fixpoint pool_session (W : N) (cs : list pool_call) (p : pool) (got : list block) : list block * pool :=
  match cs with
  | [] => (got, p)
  | Get bytes align :: cs' =>
      match pool_allocate W bytes align p with
      | (Val u, p') => pool_session W cs' p' ((u, bytes) :: got)
      | (_, p') => pool_session W cs' p' got
      end
  | Give ptr bytes align :: cs' => pool_session W cs' (pool_deallocate ptr bytes align p) got
  end.

(** The buffer is in the address space, the next free byte is in the buffer. *)
Definition pool_ok (W : N) (p : pool) : Prop :=
  (0 < p_base p /\ p_base p + p_capacity p < W /\ p_base p <= p_top p <= p_base p + p_capacity p)%N.

(** The smallest multiple of [align] that is at least [x]. *)
Definition round_up (align x : N) : N := (align * ((x + align - 1) / align))%N.

(** ** Allocator calls *)

(** The live blocks (number, size) after the calls of a log (latest first), or
    [None] if a call was wrong: a block was freed that is not live, or with a
    size other than it was allocated with. *)
Definition same_block (a b : nat * nat) : bool := (fst a =? fst b) && (snd a =? snd b).
Fixpoint heap_after (log : list event) : option (list (nat * nat)) :=
  match log with
  | [] => Some []
  | e :: l =>
      match heap_after l with
      | None => None
      | Some live =>
          match e with
          | Alloc id n => if existsb (fun b => fst b =? id) live then None else Some ((id, n) :: live)
          | Free id n =>
              if existsb (same_block (id, n)) live
              then Some (filter (fun b => negb (same_block (id, n) b)) live) else None
          end
      end
  end.

(** What the users of a storage do. *)
Inductive store_op := Reserve (n : nat) | Resize (n : nat) | Write (i : nat) (x : cell).
Definition forget_value {A S} (p : outcome A * S) : outcome unit * S := (omap (fun _ => tt) (fst p), snd p).
Definition run_store (E : env) (o : store_op) (s : astorage) : outcome unit * astorage :=
  match o with
  | Reserve n => forget_value (a_reserve E n s)
  | Resize n => forget_value (a_resize E n s)
  | Write i x => a_write i x s
  end.
(** Writes stay inside the capacity, terminator included. *)
Definition in_bounds (o : store_op) (s : astorage) : Prop :=
  match o with Write i _ => s_buf s <> None /\ i <= s_cap s | _ => True end.
Inductive storage_state : astorage -> Prop :=
| storage_new : storage_state new_storage
| storage_step E o s r s' : storage_state s -> env_ok E -> in_bounds o s -> run_store E o s = (r, s') -> storage_state s'.

(** The character at position [i]. *)
Definition content (s : astorage) (i : nat) : option cell :=
  match s_buf s with Some (_, b) => nth_error b i | None => None end.
(** Positions that [o] stores_at to. *)
Definition stores_at (o : store_op) (i : nat) : Prop :=
  match o with Reserve _ => False | Resize n => i = n | Write j _ => i = j end.
(** The space that [o] asks for. *)
Definition wants (o : store_op) : nat := match o with Reserve n | Resize n => n | Write _ _ => 0 end.

(** The storage of a mutable URL, without the log. *)
Definition without_log (s : astorage) : storage :=
  mk_storage (option_map snd (s_buf s)) (s_size s) (s_cap s) (s_count s).
