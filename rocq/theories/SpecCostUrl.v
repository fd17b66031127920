(** * SpecCostUrl: how long a segment edit takes *)

From Verif Require Import Base ModelView ModelUrl ModelCostUrl SpecSegments.

(** The edits of SpecSegments.v, counted.  The iterators are given: finding them
    (C92) is not counted. *)
Definition c_at_position (E : env) (i : nat) : C seg_it := c_pay 0 (at_position E i).
Definition c_run_edit (E : env) (e : edit) : C seg_it :=
  match e with
  | Insert_encoded i s => c_bind (c_at_position E i) (fun p => c_seg_insert_encoded E p s)
  | Insert i s => c_bind (c_at_position E i) (fun p => c_seg_insert E p s)
  | Erase i => c_bind (c_at_position E i) (fun p => c_seg_erase E p)
  | Erase_range i j => c_bind (c_at_position E i) (fun p => c_bind (c_at_position E j) (fun q => c_seg_erase2 E p q))
  | Replace_encoded i s => c_bind (c_at_position E i) (fun p => c_seg_replace_encoded E p s)
  | Replace i s => c_bind (c_at_position E i) (fun p => c_seg_replace E p s)
  end.

(** How many steps a modification of [u] took, and what came of it. *)
Definition steps {A} (m : C A) (u : url) : nat := snd (m u).
Definition result {A} (m : C A) (u : url) : outcome A * url := fst (m u).
