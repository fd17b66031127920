(** * SpecLink: which library object implements which specification object *)

From Verif Require Import Base ModelChar ModelParts SpecChar SpecGrammar.

(** The library's set for each component class. *)
Definition set_of (k : comp) : pct_encoding :=
  match k with
  | k_reg_name => reg_name_pct_set | k_userinfo => userinfo_pct_set
  | k_user => userinfo_nc_pct_set | k_pchar => pchar_pct_set
  | k_seg_nc => pchar_nc_pct_set | k_query => query_pct_set
  | k_fragment => frag_pct_set | k_key => qkey_pct_set | k_val => qval_pct_set
  end.


(** host_type of a host text. *)
Definition bracketed (h : str) : Prop := exists t, h = "["%char :: t.
Definition host_class (h : str) (t : host_type) : Prop :=
  match t with
  | host_none => h = []
  | host_ipv6 => bracketed h
  | host_ipv4 => ipv4_address h
  | host_name => h <> [] /\ ~ bracketed h /\ ~ ipv4_address h
  end.

(** The boundaries of consecutive texts, starting at [n]. *)
Fixpoint bounds (n : nat) (ts : list str) : list nat :=
  match ts with
  | [] => [n]
  | t :: r => n :: bounds (n + length t) r
  end.

(** [pt] describes the URL [u]: the offsets are the boundaries of its eight
    parts, and the counters and the host type are right. *)
Definition is_layout (u : uri) (pt : parts) : Prop :=
  offset pt = bounds 0 (part_texts u) /\
  nseg pt = length (segments_of (uri_path u)) /\
  nparam pt = match uri_query u with Some q => length (lib_params q) | None => 0 end /\
  host_class (opt au_host (uri_authority u)) (host pt).
