(** * ModelView: observers and iterators of url_view and url_base

    Models include/boost/url/impl/url_view.ipp ("view.ipp" below),
    include/boost/url/impl/url_base.ipp ("base.ipp"),
    include/boost/url/url_view.hpp, url_base.hpp, impl/url_view.hpp,
    impl/url_base.hpp.

    The two classes duplicate most observer code.  Where the text is the same up
    to formatting there is one definition citing both; where it differs there
    are two definitions, suffixed [_view] and [_base]. *)

From Verif Require Import Base ModelChar ModelParts ModelParse.

(** A byte of memory; [None] is indeterminate (never written). *)
Notation cell := (option ascii).

(** What an observer can see: the characters reachable through [s_] and the
    parts.  For url_view, [v_mem] is exactly the character range given to the
    constructor; for url_base it is the whole allocated buffer (or empty if
    [s_] is null). *)
Record view := mk_view { v_mem : list cell; v_pt : parts }.

(** Read [s_[i]]; out of bounds or indeterminate is [UB]. *)
Definition rdc (v : view) (i : nat) : outcome char :=
  match nth_error (v_mem v) i with
  | Some (Some c) => Val c
  | _ => UB
  end.

Fixpoint all_init (l : list cell) : option str :=
  match l with
  | [] => Some []
  | Some c :: r => match all_init r with Some s => Some (c :: s) | None => None end
  | None :: _ => None
  end.

(** The contents of the view [{s_ + a, b - a}]. *)
Definition sub_view (v : view) (a b : nat) : outcome str :=
  if (a <=? b) && (b <=? length (v_mem v)) then
    match all_init (firstn (b - a) (skipn a (v_mem v))) with
    | Some s => Val s
    | None => UB
    end
  else UB.

(** parts.hpp:70-89 [get(id, s)], [get(begin, end, s)] *)
Definition vget2 (v : view) (b e : nat) : outcome str :=
  sub_view v (off (v_pt v) b) (off (v_pt v) e).
Definition vget (v : view) (id : nat) : outcome str := vget2 v id (id + 1).

(** string_view operations with their preconditions. *)
Definition front_is (s : str) (c : char) : bool :=
  match s with x :: _ => Ascii.eqb x c | [] => false end.
Definition back_is (s : str) (c : char) : bool :=
  match rev s with x :: _ => Ascii.eqb x c | [] => false end.
Definition is_empty (s : str) : bool := match s with [] => true | _ => false end.
Definition remove_prefix (n : nat) (s : str) : outcome str :=
  if length s <? n then UB else Val (skipn n s).
Definition remove_suffix (n : nat) (s : str) : outcome str :=
  if length s <? n then UB else Val (firstn (length s - n) s).
(** s.substr(0, 2) == "//" *)
Definition starts_slashes (s : str) : bool := str_eqb (firstn 2 s) (L "//").

Section Observers.
Variable d : bool.   (* assertions enabled? *)
Variable v : view.

(** url_view.hpp:48-53, url_base.hpp:100-105 [size] *)
Definition size : nat := off (v_pt v) id_end.
(** view.ipp:31-39, base.ipp:41-49 [encoded_url] *)
Definition encoded_url : outcome str := vget2 v id_scheme id_end.
(** view.ipp:41-49, base.ipp:51-59 [encoded_origin] *)
Definition encoded_origin : outcome str := vget2 v id_scheme id_path.

(** view.ipp:57-69, base.ipp:135-147 [scheme] *)
Definition scheme : outcome str :=
  let! s := vget v id_scheme in
  if is_empty s then Val s else
  let! _ := oassert d (back_is s ":") in
  remove_suffix 1 s.

(** view.ipp:77-84, base.ipp:176-183 [has_authority] *)
Definition has_authority : bool := negb (plength2 (v_pt v) id_user id_path =? 0).

(** view.ipp:86-102, base.ipp:185-201 [encoded_authority] *)
Definition encoded_authority : outcome str :=
  let! s := vget2 v id_user id_path in
  if is_empty s then Val s else
  let! _ := oassert d (2 <=? length s) in
  let! _ := oassert d (starts_slashes s) in
  remove_prefix 2 s.

(** Common tail of has_userinfo, after the first [if] *)
Definition has_userinfo_rest : outcome bool :=
  let! u := vget v id_user in
  let! _ := oassert d (starts_slashes u) in
  if 2 <? plength (v_pt v) id_user then Val true
  else if 0 <? plength (v_pt v) id_password then
    let! p := vget v id_password in
    let! _ := oassert d (back_is p "@") in
    Val true
  else Val false.
(** view.ipp:110-137 [has_userinfo] *)
Definition has_userinfo_view : outcome bool :=
  if plength (v_pt v) id_user =? 0 then
    let! _ := oassert d (plength2 (v_pt v) id_user id_host =? 0) in
    Val false
  else has_userinfo_rest.
(** base.ipp:247-279 [has_userinfo] *)
Definition has_userinfo_base : outcome bool :=
  if plength (v_pt v) id_user =? 0 then
    let! _ := oassert d (plength2 (v_pt v) id_user id_path =? 0) in
    Val false
  else has_userinfo_rest.

(** view.ipp:160-178, base.ipp:294-312 [userinfo_part] *)
Definition userinfo_part : outcome str :=
  let! s := vget2 v id_user id_host in
  if is_empty s then Val s else
  let! _ := oassert d (2 <=? length s) in
  let! _ := oassert d (starts_slashes s) in
  let! s := remove_prefix 2 s in
  if is_empty s then Val s else
  let! _ := oassert d (back_is s "@") in
  Val s.

(** view.ipp:139-158 [encoded_userinfo] *)
Definition encoded_userinfo_view : outcome str :=
  let! s := vget2 v id_user id_host in
  if is_empty s then Val s else
  let! _ := oassert d (2 <=? length s) in
  let! _ := oassert d (starts_slashes s) in
  let! s := remove_prefix 2 s in
  if is_empty s then Val s else
  let! _ := oassert d (back_is s "@") in
  remove_suffix 1 s.
(** base.ipp:281-292 [encoded_userinfo] *)
Definition encoded_userinfo_base : outcome str :=
  let! s := userinfo_part in
  if is_empty s then Val s else
  let! _ := oassert d (back_is s "@") in
  remove_suffix 1 s.

(** view.ipp:180-195, base.ipp:369-384 [encoded_user] *)
Definition encoded_user : outcome str :=
  let! s := vget v id_user in
  if is_empty s then Val s else
  let! _ := oassert d (2 <=? length s) in
  let! _ := oassert d (starts_slashes s) in
  remove_prefix 2 s.

(** view.ipp:197-217 [encoded_password] *)
Definition encoded_password_view : outcome str :=
  let! s := vget v id_password in
  if length s =? 1 then
    let! _ := oassert d (front_is s "@") in
    Val []
  else if length s =? 0 then Val []
  else
    let! _ := oassert d (back_is s "@") in
    let! s := remove_suffix 1 s in
    if front_is s ":" then remove_prefix 1 s else Val s.
(** base.ipp:484-502 [encoded_password] *)
Definition encoded_password_base : outcome str :=
  let! s := vget v id_password in
  if is_empty s then Val s else
  let! s := (if front_is s ":" then
               let! _ := oassert d (2 <=? length s) in
               remove_prefix 1 s
             else Val s) in
  let! _ := oassert d (back_is s "@") in
  remove_suffix 1 s.
(** base.ipp:504-516 [password_part] (url_base only) *)
Definition password_part : outcome str :=
  let! s := vget v id_password in
  if is_empty s then Val s else
  let! _ := oassert d (front_is s "@") in
  remove_suffix 1 s.

(** view.ipp:225-233, base.ipp:652-660 [encoded_host_and_port] *)
Definition encoded_host_and_port : outcome str := vget2 v id_host id_path.
(** view.ipp:235-242, base.ipp:662-669 [encoded_host] *)
Definition encoded_host : outcome str := vget v id_host.
(** view.ipp:244-255, base.ipp:790-802 [port] *)
Definition port : outcome str :=
  let! s := vget v id_port in
  let! _ := oassert d (is_empty s || front_is s ":") in
  if is_empty s then Val s else remove_prefix 1 s.
(** view.ipp:257-266, base.ipp:804-814 [port_part] *)
Definition port_part : outcome str :=
  let! s := vget v id_port in
  let! _ := oassert d (is_empty s || front_is s ":") in
  Val s.
(** view.ipp:274-281, base.ipp:902-909 [encoded_path] *)
Definition encoded_path : outcome str := vget v id_path.
(** view.ipp:289-300, base.ipp:956-967 [encoded_query] *)
Definition encoded_query : outcome str :=
  let! s := vget v id_query in
  if is_empty s then Val s else
  let! _ := oassert d (front_is s "?") in
  Val (skipn 1 s).
(** view.ipp:302-313, base.ipp:969-980 [query_part] *)
Definition query_part : outcome str :=
  let! s := vget v id_query in
  if is_empty s then Val s else
  let! _ := oassert d (front_is s "?") in
  Val s.
(** view.ipp:321-332, base.ipp:1055-1066 [encoded_fragment] *)
Definition encoded_fragment : outcome str :=
  let! s := vget v id_frag in
  if is_empty s then Val s else
  let! _ := oassert d (front_is s "#") in
  Val (skipn 1 s).
(** view.ipp:334-345, base.ipp:1068-1079 [fragment_part] *)
Definition fragment_part : outcome str :=
  let! s := vget v id_frag in
  if is_empty s then Val s else
  let! _ := oassert d (front_is s "#") in
  Val s.

(** url_view.hpp / url_base.hpp [host_type] (returns pt_.host) *)
Definition get_host_type : host_type := host (v_pt v).

(** Decoding getters: url_base.hpp:452-462 [user], 557-567 [password],
    756-772 [host], 1180-1190 [query], 1420-1430 [fragment]; url_view.hpp:187,
    217, 289-302, 405, 520.  (std::string allocation failure is not modelled.) *)
Definition user : outcome str := let! s := encoded_user in decode s.
Definition password_view : outcome str := let! s := encoded_password_view in decode s.
Definition password_base : outcome str := let! s := encoded_password_base in decode s.
Definition get_host : outcome str :=
  if negb (host_type_eqb (host (v_pt v)) host_name) then vget v id_host
  else let! s := encoded_host in decode s.
Definition query : outcome str := let! s := encoded_query in decode s.
Definition fragment : outcome str := let! s := encoded_fragment in decode s.

(** ** Segments *)

(** url_view.hpp:627-632, url_base.hpp:1659-1664 [segments().size()] *)
Definition segments_size : nat := nseg (v_pt v).

(** view.ipp:693-698 (url_view.hpp), url_base.hpp:1823-1829: the iterator data
    [off_], [n_].  The container pointer is implicit: iterators of different
    containers are not compared in the model. *)
Record seg_it := mk_seg_it { si_off : nat; si_n : nat }.

(** The loop [while(p < end) { if( *p == '/') break; ++p; }], [k = end - p]. *)
Fixpoint scan_slash (k p : nat) : outcome nat :=
  match k with
  | O => Val p
  | S k' =>
      let! c := rdc v p in
      if Ascii.eqb c "/" then Val p else scan_slash k' (S p)
  end.

(** Common text of view.ipp:463-486 and base.ipp:1294-1318 [iterator::parse];
    they differ in [end]. Returns the iterator with n_ set. *)
Definition seg_parse_to (end_ : nat) (o : nat) : outcome seg_it :=
  let! _ := oassert d (negb (o =? off (v_pt v) id_frag)) in
  let! c := rdc v o in
  let p := if Ascii.eqb c "/" then S o else o in
  let! p' := scan_slash (end_ - p) p in
  Val (mk_seg_it o (p' - o)).
(** view.ipp:463-486: end is offset[id_frag] *)
Definition seg_parse_view (o : nat) : outcome seg_it := seg_parse_to (off (v_pt v) id_frag) o.
(** base.ipp:1294-1318: end is offset[id_query] *)
Definition seg_parse_base (o : nat) : outcome seg_it := seg_parse_to (off (v_pt v) id_query) o.

(** The iterator functions, generic in [parse]: the text of the two copies is
    otherwise the same. *)
Section Seg.
Variable parse : nat -> outcome seg_it.

(** view.ipp:364-391, base.ipp:1196-1222: constructor (non-null container) *)
Definition seg_iter (end_ : bool) : outcome seg_it :=
  if end_ || (nseg (v_pt v) =? 0) then Val (mk_seg_it (off (v_pt v) id_query) 0)
  else parse (off (v_pt v) id_path).
Definition seg_begin := seg_iter false.
Definition seg_end := seg_iter true.

(** view.ipp:393-406, base.ipp:1224-1237 [operator*]: the encoded string *)
Definition seg_deref (it : seg_it) : outcome str :=
  let! s := sub_view v (si_off it) (si_off it + si_n it) in
  if negb (is_empty s) && front_is s "/" then Val (skipn 1 s) else Val s.

(** view.ipp:408-430, base.ipp:1239-1261 [operator++] *)
Definition seg_incr (it : seg_it) : outcome seg_it :=
  let! _ := oassert d (negb (si_off it =? off (v_pt v) id_frag)) in
  let o := si_off it + si_n it in
  if o =? off (v_pt v) id_frag then Val (mk_seg_it o 0)
  else parse o.

(** The loop [while(--p > begin) if( *p == ch) ...] started at
    [p = begin + k]; [Some p] if found, [None] if it ends with p == begin.
    Starting at [begin] itself moves the pointer below it: [UB]. *)
Fixpoint back_scan (ch : char) (begin k : nat) : outcome (option nat) :=
  match k with
  | O => UB
  | S k' =>
      if k' =? 0 then Val None
      else
        let! c := rdc v (begin + k') in
        if Ascii.eqb c ch then Val (Some (begin + k'))
        else back_scan ch begin k'
  end.

(** view.ipp:432-461, base.ipp:1263-1292 [operator--] *)
Definition seg_decr (it : seg_it) : outcome seg_it :=
  let begin := off (v_pt v) id_path in
  let! _ := oassert d (negb (si_off it =? begin)) in
  let! r := back_scan "/" begin (si_off it - begin) in
  match r with
  | Some p => parse p
  | None => Val (mk_seg_it begin (si_off it - begin))
  end.

(** impl/url_view.hpp:16-30, impl/url_base.hpp:25-39 [operator==] *)
Definition seg_eq (a b : seg_it) : outcome bool :=
  let! _ := oassert d (negb (si_off a =? si_off b) || (si_n a =? si_n b)) in
  Val (si_off a =? si_off b).

(** [for(auto it = begin(); it != end(); ++it) use( *it)]: the encoded strings
    seen.  [fuel] bounds the number of iterations. *)
Fixpoint seg_loop (fuel : nat) (it last : seg_it) : outcome (list str) :=
  match fuel with
  | O => Hang
  | S f =>
      let! e := seg_eq it last in
      if e then Val [] else
      let! s := seg_deref it in
      let! it' := seg_incr it in
      let! r := seg_loop f it' last in
      Val (s :: r)
  end.
Definition seg_all (fuel : nat) : outcome (list str) :=
  let! b := seg_begin in
  let! e := seg_end in
  seg_loop fuel b e.
End Seg.

(** ** Query parameters *)

(** url_view.hpp:802-807, url_base.hpp:1938-1943 [params().size()] *)
Definition params_size : nat := nparam (v_pt v).

(** iterator data off_, nk_, nv_ (url_base.hpp:2099-2102) *)
Record par_it := mk_par_it { pi_off : nat; pi_nk : nat; pi_nv : nat }.

(** [e.parse(s_ + p, s_ + end, ec)]: new position and error code.  Reads only
    the range [p, end); indeterminate bytes there are [UB]. *)
Definition pct_parse_range (e : pct_encoding) (p end_ : nat) (ec : error_code)
  : outcome (nat * error_code) :=
  if p <=? end_ then
    let! s := sub_view v p end_ in
    let '(l, ec') := pct_parse e s ec in
    Val (end_ - length l, ec')
  else Val (p, ec).

Definition no_ec (ec : error_code) : bool := match ec with None => true | _ => false end.

(** An assertion whose operand reads memory: in an assertion-enabled build the
    read happens (and may be [UB]); otherwise nothing happens. *)
Definition oassert_m (c : outcome bool) : outcome unit :=
  if d then (let! b := c in if b then Val tt else Abort) else Val tt.

Definition char_is (i : nat) (c : char) : outcome bool :=
  let! x := rdc v i in Val (Ascii.eqb x c).

(** view.ipp:642-680, base.ipp:1633-1671 [iterator::parse] *)
Definition par_parse (o : nat) : outcome par_it :=
  let! _ := oassert d (0 <? nparam (v_pt v)) in
  let end_ := off (v_pt v) id_end in
  let! _ := oassert_m (if o =? off (v_pt v) id_query then char_is o "?" else char_is o "&") in
  let! r := pct_parse_range qkey_pct_set (S o) end_ None in
  let '(p, ec) := r in
  let! _ := oassert d (no_ec ec) in
  let nk := p - o in
  if p =? end_ then Val (mk_par_it o nk 0)
  else
    let! _ := oassert_m (char_is p "=") in
    let! r := pct_parse_range qval_pct_set (S p) end_ ec in
    let '(q, ec) := r in
    let! _ := oassert d (no_ec ec) in
    Val (mk_par_it o nk (q - p)).

(** view.ipp:526-555, base.ipp:1518-1546: constructor (non-null container) *)
Definition par_iter (end_ : bool) : outcome par_it :=
  if end_ || (nparam (v_pt v) =? 0) then Val (mk_par_it (off (v_pt v) id_frag) 0 0)
  else par_parse (off (v_pt v) id_query).
Definition par_begin := par_iter false.
Definition par_end := par_iter true.

(** view.ipp:557-583, base.ipp:1548-1574 [operator*]: encoded key and value.
    [nk_ - 1] with nk_ = 0 wraps around: [UB]. *)
Definition par_deref (it : par_it) : outcome (str * str) :=
  let o := pi_off it in
  let! _ := oassert d (0 <? nparam (v_pt v)) in
  let! _ := oassert d (0 <? pi_nk it) in
  let! _ := oassert_m (if o =? off (v_pt v) id_query then char_is o "?" else char_is o "&") in
  if pi_nk it =? 0 then UB else
  let! k := sub_view v (o + 1) (o + 1 + (pi_nk it - 1)) in
  if pi_nv it =? 0 then Val (k, [])
  else
    let! _ := oassert_m (char_is (o + pi_nk it) "=") in
    let! x := sub_view v (o + pi_nk it + 1) (o + pi_nk it + 1 + (pi_nv it - 1)) in
    Val (k, x).

(** view.ipp:585-610, base.ipp:1576-1601 [operator++] *)
Definition par_incr (it : par_it) : outcome par_it :=
  let! _ := oassert d (0 <? nparam (v_pt v)) in
  let! _ := oassert d (negb (pi_off it =? off (v_pt v) id_frag)) in
  let o := pi_off it + pi_nv it + pi_nk it in
  if o =? off (v_pt v) id_frag then Val (mk_par_it o 0 0)
  else par_parse o.

(** view.ipp:612-640, base.ipp:1603-1631 [operator--].  When the first
    parameter is reached, nk_ and nv_ keep their old values (lines 637-639,
    1628-1630). *)
Definition par_decr (it : par_it) : outcome par_it :=
  let begin := off (v_pt v) id_query in
  let! _ := oassert d (0 <? nparam (v_pt v)) in
  let! _ := oassert d (negb (pi_off it =? begin)) in
  let! r := back_scan "&" begin (pi_off it - begin) in
  match r with
  | Some p => par_parse p
  | None =>
      let! _ := oassert_m (char_is begin "?") in
      Val (mk_par_it begin (pi_nk it) (pi_nv it))
  end.

(** impl/url_view.hpp:49-64, impl/url_base.hpp:81-96 [operator==] *)
Definition par_eq (a b : par_it) : outcome bool :=
  let! _ := oassert d (negb (pi_off a =? pi_off b)
                       || ((pi_nk a =? pi_nk b) && (pi_nv a =? pi_nv b))) in
  Val (pi_off a =? pi_off b).

(** Range-for over params(): encoded keys and values. *)
Fixpoint par_loop (fuel : nat) (it last : par_it) : outcome (list (str * str)) :=
  match fuel with
  | O => Hang
  | S f =>
      let! e := par_eq it last in
      if e then Val [] else
      let! s := par_deref it in
      let! it' := par_incr it in
      let! r := par_loop f it' last in
      Val (s :: r)
  end.
Definition par_all (fuel : nat) : outcome (list (str * str)) :=
  let! b := par_begin in
  let! e := par_end in
  par_loop fuel b e.

(** view.ipp:702-713, base.ipp:1693-1704 [contains] *)
Fixpoint contains_loop (fuel : nat) (it last : par_it) (key : str) : outcome bool :=
  match fuel with
  | O => Hang
  | S f =>
      let! e := par_eq it last in
      if e then Val false else
      let! s := par_deref it in
      let! q := key_equal d (fst s) key in
      if q then Val true else
      let! it' := par_incr it in
      contains_loop f it' last key
  end.
Definition contains (fuel : nat) (key : str) : outcome bool :=
  let! b := par_begin in
  let! e := par_end in
  contains_loop fuel b e key.

(** view.ipp:715-727, base.ipp:1706-1718 [count] *)
Fixpoint count_loop (fuel : nat) (it last : par_it) (key : str) (n : nat) : outcome nat :=
  match fuel with
  | O => Hang
  | S f =>
      let! e := par_eq it last in
      if e then Val n else
      let! s := par_deref it in
      let! q := key_equal d (fst s) key in
      let! it' := par_incr it in
      count_loop f it' last key (if q then S n else n)
  end.
Definition count (fuel : nat) (key : str) : outcome nat :=
  let! b := par_begin in
  let! e := par_end in
  count_loop fuel b e key 0.

(** view.ipp:729-743, base.ipp:1720-1734 [find] *)
Fixpoint find_loop (fuel : nat) (it last : par_it) (key : str) : outcome par_it :=
  match fuel with
  | O => Hang
  | S f =>
      let! e := par_eq it last in
      if e then Val it else
      let! s := par_deref it in
      let! q := key_equal d (fst s) key in
      if q then Val it else
      let! it' := par_incr it in
      find_loop f it' last key
  end.
Definition find (fuel : nat) (key : str) : outcome par_it :=
  let! b := par_begin in
  let! e := par_end in
  find_loop fuel b e key.

(** view.ipp:745-754, base.ipp:1736-1745 [operator[]] *)
Definition index (fuel : nat) (key : str) : outcome str :=
  let! it := find fuel key in
  let! e := par_end in
  let! q := par_eq it e in
  if q then Val [] else
  let! s := par_deref it in
  decode (snd s).

(** impl/url_view.hpp:34-45, impl/url_base.hpp:68-79 [at] *)
Definition at_ (fuel : nat) (key : str) : outcome str :=
  let! it := find fuel key in
  let! e := par_end in
  let! q := par_eq it e in
  if q then Exn out_of_range else
  let! s := par_deref it in
  decode (snd s).

End Observers.

(** view.ipp:20-29: constructor [url_view(s)]. *)
Definition make_url_view (d : bool) (s : str) : outcome view :=
  let! pt := parse_url d s in
  Val (mk_view (map Some s) pt).

(** url_view.hpp:36, 29: default constructor; [s_] points to "". *)
Definition url_view0 : view := mk_view [] parts0.
