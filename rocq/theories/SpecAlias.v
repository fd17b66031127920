(** * SpecAlias: calls whose argument points into the URL itself *)

From Verif Require Import Base ModelChar ModelParts ModelView ModelUrl ModelAlias SpecChar SpecGrammar SpecLink SpecView SpecStore SpecUrl SpecSegments.

(** The text argument of a modifier. *)
Definition arg_text (o : op) : option str :=
  match o with
  | Set_encoded_url s | Set_encoded_origin s | Set_scheme s | Set_encoded_authority s
  | Set_encoded_userinfo s | Set_userinfo_part s | Set_user s | Set_encoded_user s
  | Set_password s | Set_encoded_password s | Set_password_part s | Set_host s
  | Set_encoded_host s | Set_port s | Set_port_part s | Set_encoded_path s
  | Set_query s | Set_encoded_query s | Set_query_part s
  | Set_fragment s | Set_encoded_fragment s | Set_fragment_part s => Some s
  | Set_port_n _ | Normalize => None
  end.

(** [run_from E o x]: the modifier [o], with its argument taken from [x] instead
    of from the text in [o]. *)
Definition run_from (E : env) (o : op) (x : source) : U unit :=
  match o with
  | Set_encoded_url _ => own_encoded_url E x
  | Set_encoded_origin _ => own_encoded_origin E x
  | Set_scheme _ => own_scheme E x
  | Set_encoded_authority _ => own_encoded_authority E x
  | Set_encoded_userinfo _ => own_encoded_userinfo E x
  | Set_userinfo_part _ => own_userinfo_part E x
  | Set_user _ => own_user E x
  | Set_encoded_user _ => own_encoded_user E x
  | Set_password _ => own_password E x
  | Set_encoded_password _ => own_encoded_password E x
  | Set_password_part _ => own_password_part E x
  | Set_host _ => own_host E x
  | Set_encoded_host _ => own_encoded_host E x
  | Set_port _ => own_port E x
  | Set_port_part _ => own_port_part E x
  | Set_encoded_path _ => own_encoded_path E x
  | Set_query _ => own_query E x
  | Set_encoded_query _ => own_encoded_query E x
  | Set_query_part _ => own_query_part E x
  | Set_fragment _ => own_fragment E x
  | Set_encoded_fragment _ => own_encoded_fragment E x
  | Set_fragment_part _ => own_fragment_part E x
  | Set_port_n _ | Normalize => run E o
  end.

(** [has_bytes u p s]: the bytes at offset [p] of the buffer of [u] are [s]. *)
Definition has_bytes (u : url) (p : nat) (s : str) : Prop :=
  exists b, live_buf u = Some b /\ firstn (length s) (skipn p b) = map Some s.
(** The view of these bytes that the caller holds. *)
Definition own (u : url) (p : nat) (s : str) : source := Own (st_allocs (u_st u)) p (length s).
(** The buffer of [u] is still that of [u0]. *)
Definition not_moved (u0 u : url) : Prop := st_allocs (u_st u) = st_allocs (u_st u0).

(** [first_changed o u]: the offset of the first character that [o] replaces. *)
Definition first_changed (o : op) (u : url) : nat :=
  let at_ id := off (u_pt u) id in
  match o with
  | Set_encoded_url _ | Set_encoded_origin _ | Set_scheme _ | Normalize => 0
  | Set_encoded_authority _ | Set_encoded_userinfo _ | Set_userinfo_part _
  | Set_user _ | Set_encoded_user _ => at_ id_user
  | Set_password _ | Set_encoded_password _ | Set_password_part _ =>
      if plength (u_pt u) id_user =? 0 then at_ id_user else at_ id_password
  | Set_host _ | Set_encoded_host _ =>
      if has_authority (view_of u) then at_ id_host else at_ id_user
  | Set_port _ | Set_port_n _ | Set_port_part _ =>
      if has_authority (view_of u) then at_ id_port else at_ id_user
  | Set_encoded_path _ => at_ id_path
  | Set_query _ | Set_encoded_query _ | Set_query_part _ => at_ id_query
  | Set_fragment _ | Set_encoded_fragment _ | Set_fragment_part _ => at_ id_frag
  end.

(** The argument has characters besides a delimiter. *)
Definition has_text (o : op) (s : str) : Prop :=
  match o with
  | Set_userinfo_part _ | Set_password_part _ | Set_port_part _ | Set_query_part _ | Set_fragment_part _ =>
      2 <= length s
  | _ => 1 <= length s
  end.

(** The same for segment edits. *)
Definition edit_arg (e : edit) : option (nat * str) :=
  match e with
  | Insert_encoded i s | Insert i s | Replace_encoded i s | Replace i s => Some (i, s)
  | Erase _ | Erase_range _ _ => None
  end.
Definition edit_from (E : env) (e : edit) (x : source) : U seg_it :=
  match e with
  | Insert_encoded i _ => bind (at_position E i) (fun p => own_insert_encoded E p x)
  | Insert i _ => bind (at_position E i) (fun p => own_insert E p x)
  | Replace_encoded i _ => bind (at_position E i) (fun p => own_replace_encoded E p x)
  | Replace i _ => bind (at_position E i) (fun p => own_replace E p x)
  | Erase _ | Erase_range _ _ => run_edit E e
  end.
