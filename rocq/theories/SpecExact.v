(** * SpecExact: vocabulary for the exact theorems *)

From Verif Require Import Base ModelChar ModelParts ModelView ModelUrl SpecChar SpecGrammar SpecLink SpecView SpecStore SpecUrl SpecHistory SpecMisc ModelMisc.

(** The call leaves a proper URL: it returns and every accessor shows the
    components it should, or it throws and nothing changes. *)
Definition intact (E : env) (o : op) (a : uri) (u : url) : Prop :=
  match run E o u with
  | (Val _, u') => exists a', does o a a' /\ rep (part_texts a') u' /\ shows (dbg E) (view_of u') a'
  | (Exn _, u') => u' = u
  | _ => False
  end.
(** The call fires an assertion, or returns and leaves something whose accessors
    fit no URL at all. *)
Definition ruined (E : env) (o : op) (u : url) : Prop :=
  match run E o u with
  | (Val _, u') => forall a', ~ shows (dbg E) (view_of u') a'
  | (Abort, u') => u' = u
  | _ => False
  end.

(** [since d u0 b u c]: [history] from [u0] to [u], where [c] are the components
    of the URL when the counters were last computed, starting with [b]. *)
Inductive since (d : bool) (u0 : url) (b : uri) : url -> uri -> Prop :=
| since_start : since d u0 b u0 b
| since_replaced E o u1 c x u2 a :
    since d u0 b u1 c -> env_ok E -> dbg E = d -> replaces o = true ->
    run E o u1 = (Val x, u2) -> rep (part_texts a) u2 -> since d u0 b u2 a
| since_other E o u1 c r u2 :
    since d u0 b u1 c -> env_ok E -> dbg E = d -> arg_ok o ->
    (forall a, rep (part_texts a) u1 -> ~ breaks d o a) ->
    replaces o = false \/ r <> Val tt -> run E o u1 = (r, u2) -> since d u0 b u2 c.

(** The same for the host and the calls that compute its type. *)
Inductive host_since (d : bool) (u0 : url) (b : str) : url -> str -> Prop :=
| host_since_start : host_since d u0 b u0 b
| host_since_set E o u1 c x u2 a :
    host_since d u0 b u1 c -> env_ok E -> dbg E = d -> arg_ok o -> sets_host o = true ->
    run E o u1 = (Val x, u2) -> rep (part_texts a) u2 -> host_since d u0 b u2 (the_host a)
| host_since_other E o u1 c r u2 :
    host_since d u0 b u1 c -> env_ok E -> dbg E = d -> arg_ok o ->
    (forall a, rep (part_texts a) u1 -> ~ breaks d o a) ->
    sets_host o = false \/ r <> Val tt -> run E o u1 = (r, u2) -> host_since d u0 b u2 c.

(** The allocator grants every request of at most max_size() bytes. *)
Definition generous (E : env) : Prop := forall k n, alloc_ok E k n = true <-> n <= max_size E.

(** std::tolower may be called with this char: it is not negative, or it is -1,
    which is EOF. *)
Definition tolower_accepts (c : char) : Prop := nat_of_ascii c < 128 \/ nat_of_ascii c = 255.
(** The name of a special scheme of the same length agrees with [s], ignoring
    case, up to a character for which tolower is not defined. *)
Definition negative_inside (s : str) : Prop :=
  exists k n i c, scheme_name k = Some n /\ length n = length s /\ same_ignoring_case (firstn i s) (firstn i n) /\
    nth_error s i = Some c /\ ~ tolower_accepts c.

(** The same components, except that one may have an empty authority where the
    other has none. *)
Definition same_but_slashes (a b : uri) : Prop :=
  uri_scheme a = uri_scheme b /\ the_userinfo a = the_userinfo b /\ the_host a = the_host b /\ the_port a = the_port b /\
  uri_path a = uri_path b /\ uri_query a = uri_query b /\ uri_fragment a = uri_fragment b.
