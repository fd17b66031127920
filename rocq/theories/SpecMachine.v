(** * SpecMachine: urls on a machine whose numbers wrap around *)

From Verif Require Import Base ModelChar ModelParts ModelParse ModelView ModelUrl SpecChar SpecGrammar SpecLink SpecView SpecStore SpecUrl SpecHistory SpecSegments.

(** The text given to a modifier. *)
Definition text_of (o : op) : str :=
  match o with
  | Set_encoded_url s | Set_encoded_origin s | Set_scheme s | Set_encoded_authority s | Set_encoded_userinfo s | Set_userinfo_part s
  | Set_user s | Set_encoded_user s | Set_password s | Set_encoded_password s | Set_password_part s | Set_host s | Set_encoded_host s
  | Set_port s | Set_port_part s | Set_encoded_path s | Set_query s | Set_encoded_query s | Set_query_part s
  | Set_fragment s | Set_encoded_fragment s | Set_fragment_part s => s
  | Set_port_n _ | Normalize => []
  end.

(** The text is not longer than about a third of what the numbers have left
    above the largest possible block of memory.  (The standard allocator gives out
    at most half of the numbers' range, so a sixth of the range is always allowed.) *)
Definition not_huge (E : env) (s : str) : Prop := max_size E + 3 * length s + 37 <= size_max E.

(** A program: calls one after the other, exceptions are caught; the outcomes and
    the final state.  [call] says what a call does. *)
Fixpoint outcomes (call : op -> U unit) (os : list op) (u : url) : list (outcome unit) * url :=
  match os with
  | [] => ([], u)
  | o :: os => let (r, u') := call o u in let (rs, u'') := outcomes call os u' in (r :: rs, u'')
  end.

(** No call of the program is one that damages the url. *)
Fixpoint harmless (E : env) (os : list op) (u : url) : Prop :=
  match os with
  | [] => True
  | o :: os => arg_ok o /\ (forall a, rep (part_texts a) u -> ~ breaks (dbg E) o a) /\ harmless E os (snd (run E o u))
  end.

(** Usual machines: [size_t] has 32 or 64 bits; the allocator gives out any block
    of less than half of the range. *)
Definition machine (size : N) (d : bool) : env :=
  mk_env d (N.to_nat (size - 1)) (N.to_nat (size / 2 - 1)) (fun _ n => n <=? N.to_nat (size / 2 - 1)).
Definition bits32 : bool -> env := machine (2 ^ 32).
Definition bits64 : bool -> env := machine (2 ^ 64).

(** The text given to a segment edit. *)
Definition edit_text (e : edit) : str :=
  match e with Insert_encoded _ s | Insert _ s | Replace_encoded _ s | Replace _ s => s | Erase _ | Erase_range _ _ => [] end.
