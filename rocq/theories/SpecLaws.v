(** * SpecLaws: programs that edit in a loop *)

From Verif Require Import Base ModelChar ModelParts ModelView ModelUrl SpecChar SpecGrammar SpecLink SpecView SpecStore SpecUrl SpecHistory SpecSegments.

(** for(auto s : ss) it = segments.insert(it, s); *)
Fixpoint insert_loop (E : env) (p : seg_it) (ss : list str) : U seg_it :=
  match ss with
  | [] => ret p
  | s :: r => bind (seg_insert E p s) (fun q => insert_loop E q r)
  end.

(** while(n-- > 0) it = segments.erase(it); *)
Fixpoint erase_loop (E : env) (n : nat) (p : seg_it) : U seg_it :=
  match n with
  | O => ret p
  | S n => bind (seg_erase E p) (erase_loop E n)
  end.

(** while(it != segments.end())
        if(f(it->encoded_string())) it = segments.erase(it); else ++it;
    More than [fuel] rounds: [Hang]. *)
Fixpoint erase_if (E : env) (f : str -> bool) (fuel : nat) (p : seg_it) : U seg_it :=
  match fuel with
  | O => lift Hang
  | S n =>
      bind (observe (fun v => seg_end v (seg_parse_base (dbg E) v))) (fun e =>
      bind (lift (seg_eq (dbg E) p e)) (fun b =>
      if b then ret p else
      bind (observe (fun v => seg_deref v p)) (fun s =>
      if f s then bind (seg_erase E p) (erase_if E f n)
      else bind (observe (fun v => seg_incr (dbg E) v (seg_parse_base (dbg E) v) p)) (erase_if E f n))))
  end.

(** [f] holds of the last segment. *)
Definition last_is (f : str -> bool) (ss : list str) : Prop := exists front s, ss = front ++ [s] /\ f s = true.

(** [e] inserts at [i]. *)
Definition inserts (e : edit) (i : nat) : Prop := exists s, e = Insert i s \/ e = Insert_encoded i s.
(** [xs] inserted at [i]. *)
Definition insert_all (i : nat) (xs l : list str) : list str := firstn i l ++ xs ++ skipn i l.
(** [u'] has segments [ss] and otherwise the components of [a], and can be
    edited further. *)
Definition left_with (E : env) (u' : url) (a : uri) (ss : list str) : Prop :=
  editable (dbg E) u' (with_segments ss a) /\ the_segments (with_segments ss a) = ss.
