(** * PropertiesMachine: what happens when numbers wrap around *)

From Verif Require Import Base ModelChar ModelParts ModelParse ModelView ModelUrl SpecChar SpecGrammar SpecLink SpecView SpecStore SpecUrl SpecSegments SpecHistory
  ModelMachine SpecMachine ProofsMachineRun ProofsMachineEdit.

(** ** C90: sizes and offsets do not overflow

    [w_run] is [run] with all sums and differences of sizes, lengths and offsets
    computed modulo the number of values of size_t. *)

(** A call with a text that is not huge does with the machine's numbers what it
    does with the numbers of mathematics, on every url that fits into memory. *)
Theorem C90_calls_do_not_overflow :
  forall (E : env) (o : op) (a : uri) (u : url),
    env_ok E -> arg_ok o -> rep (part_texts a) u -> st_cap (u_st u) <= max_size E ->
    ~ breaks (dbg E) o a -> not_huge E (text_of o) ->
    w_run E o u = run E o u.
Proof. exact machine_call. Qed.
Print Assumptions C90_calls_do_not_overflow.
Example C90_example :
  env_ok (mk_env true 1000 400 (fun _ n => n <=? 400)) /\
  not_huge (mk_env true 1000 400 (fun _ n => n <=? 400)) (L "a b") /\
  fst (w_run (mk_env true 1000 400 (fun _ n => n <=? 400)) (Set_query (L "a b")) url0) = Val tt.
Proof.
  split; [intros k n H; apply Nat.leb_le in H; exact H|]. split; [apply Nat.leb_le; vm_compute; reflexivity|vm_compute; reflexivity].
Qed.

(** The same for programs: starting from an empty url, any sequence of calls has
    the same outcomes and the same final state. *)
Theorem C90_programs_do_not_overflow :
  forall (E : env) (os : list op),
    env_ok E -> Forall (fun o => not_huge E (text_of o)) os -> harmless E os url0 ->
    outcomes (w_run E) os url0 = outcomes (run E) os url0.
Proof. exact machine_programs. Qed.
Print Assumptions C90_programs_do_not_overflow.
Example C90_program_example :
  harmless (mk_env true 1000 400 (fun _ n => n <=? 400)) [Set_query (L "a b"); Set_host (L "x"); Set_scheme (L "1")] url0 /\
  fst (outcomes (w_run (mk_env true 1000 400 (fun _ n => n <=? 400))) [Set_query (L "a b"); Set_host (L "x"); Set_scheme (L "1")] url0) = [Val tt; Val tt; Exn invalid_part].
Proof. split; [repeat split; intros; intros []|vm_compute; reflexivity]. Qed.

(** The same for the segment edits. *)
Theorem C90_edits_do_not_overflow :
  forall (E : env) (e : edit) (a : uri) (u : url),
    env_ok E -> editable (dbg E) u a -> in_range e a -> st_cap (u_st u) <= max_size E ->
    ~ asserts (dbg E) e a -> not_huge E (edit_text e) ->
    w_run_edit E e u = run_edit E e u.
Proof. exact machine_edits. Qed.
Print Assumptions C90_edits_do_not_overflow.
Example C90_edit_example :
  match make_url (mk_env true 1000 400 (fun _ n => n <=? 400)) (L "http://h/a/b?q") with
  | Val u => match w_run_edit (mk_env true 1000 400 (fun _ n => n <=? 400)) (Insert 1 (L "x y")) u with
             | (Val p, u') => encoded_path (view_of u')
             | _ => UB
             end
  | _ => UB
  end = Val (L "/a/x%20y/b").
Proof. vm_compute. reflexivity. Qed.

(** On machines with 32 or 64 bits, texts of less than a sixth of the address
    space are not huge. *)
Theorem C90_usual_machines :
  forall (d : bool) (s : str),
    env_ok (bits32 d) /\ env_ok (bits64 d) /\
    ((6 * N.of_nat (length s) + 74 < 2 ^ 32)%N -> not_huge (bits32 d) s) /\
    ((6 * N.of_nat (length s) + 74 < 2 ^ 64)%N -> not_huge (bits64 d) s).
Proof. exact usual_machines. Qed.
Print Assumptions C90_usual_machines.

(** For longer texts the claim is false: on a machine with 32 bits there is a text
    of less than 2^31 characters for which the size of the encoded query wraps
    around, and set_query writes behind the end of its buffer. *)
Theorem C90_huge_texts_refuted :
  exists n : nat, (N.of_nat n < 2 ^ 31)%N /\
    fst (run (bits32 false) (Set_query (repeat "#"%char n)) url0) = Exn too_large /\
    fst (w_run (bits32 false) (Set_query (repeat "#"%char n)) url0) = UB.
Proof. exact bits32_wraps. Qed.
Print Assumptions C90_huge_texts_refuted.
