(** * SpecCostAppend: programs that build a path segment by segment *)

From Verif Require Import Base ModelChar ModelView ModelUrl ModelCostIter ModelCostUrl.

(** [u.segments().insert(it, s)] or [u.segments().insert_encoded(it, s)] *)
Definition c_put (E : env) (plain : bool) (it : seg_it) (s : str) : C seg_it :=
  if plain then c_seg_insert E it s else c_seg_insert_encoded E it s.
(** ... with [it = u.segments().end()], with [it = u.segments().begin()] *)
Definition c_append (E : env) (plain : bool) (s : str) : C seg_it :=
  c_bind (c_observe (fun v => k_seg_end v (k_seg_parse_base (dbg E) v))) (fun it => c_put E plain it s).
Definition c_prepend (E : env) (plain : bool) (s : str) : C seg_it :=
  c_bind (c_observe (fun v => k_seg_begin v (k_seg_parse_base (dbg E) v))) (fun it => c_put E plain it s).

(** [for(auto s : ss) f(s);] *)
Fixpoint c_each {A} (f : str -> C A) (ss : list str) : C unit :=
  match ss with
  | [] => c_ret tt
  | s :: r => c_bind (f s) (fun _ => c_each f r)
  end.
