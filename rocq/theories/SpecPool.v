(** * SpecPool: programs that modify several urls in one pool *)

From Verif Require Import Base ModelChar ModelParts ModelView ModelUrl ModelMisc ModelPool SpecChar SpecGrammar SpecLink SpecView SpecStore SpecUrl SpecHistory SpecMisc.

(** [program W largest d ok w w']: [w'] results from [w] by any finite
    sequence of modifiers (except the damaging ones) on any of the urls, with any
    arguments and outcomes, such that url number [i] satisfies [ok i] after every
    call on it. *)
Inductive program (W : N) (largest : nat) (d : bool) (ok : nat -> url -> Prop) (w0 : world) : world -> Prop :=
| program_start : program W largest d ok w0 w0
| program_call w i x o r w' :
    program W largest d ok w0 w -> nth_error (w_urls w) i = Some x -> arg_ok o ->
    (forall a, rep (part_texts a) (pl_url x) -> ~ breaks d o a) ->
    call_on W largest (fun E => run E o) d i w = (r, w') ->
    (forall x', nth_error (w_urls w') i = Some x' -> ok i (pl_url x')) ->
    program W largest d ok w0 w'.

(** A pool of [cap] bytes at [base] fits into the address space. *)
Definition in_memory (W base cap : N) : Prop := (0 < base /\ base + cap < W)%N.

(** The buffer of a url. *)
Definition buffer_of (x : placed) : N * N := (pl_at x, N.of_nat (st_cap (u_st (pl_url x)) + 1)).
Definition has_buffer (x : placed) : Prop := st_buf (u_st (pl_url x)) <> None.

(** Url number [i] was never longer than the [i]-th of [ns]. *)
Definition at_most (ns : list nat) (i : nat) (u : url) : Prop := usize u <= nth i ns 0.
(** Enough memory for urls of these lengths. *)
Definition enough_for (ns : list nat) : nat := fold_right (fun n s => 5 * n + 6 + s) 0 ns.
