(** * SpecHolder: programs that hold iterators

    Programs as in SpecProgram, which in addition have any number of variables for
    iterators of the segments, and for iterators of the parameters, of any url.  An
    iterator is described by the url that it belongs to and its position, as long
    as it is valid. *)

From Verif Require Import Base ModelChar ModelParts ModelView ModelUrl ModelUrls SpecChar SpecGrammar SpecLink SpecView SpecStore SpecUrl SpecHistory
  SpecIter SpecSegments SpecElems SpecHeld SpecMixed SpecStale SpecUrls SpecProgram.

(** ** Functions *)

(** [i], [j]: variables; [x]: a url.  Segments and parameters have their own
    variables. *)
Inductive move :=
| Use (x : nat) (f : action)            (* as in SpecProgram *)
| Begin (i x : nat)                     (* i = x.segments().begin() *)
| End_ (i x : nat)                      (* i = x.segments().end() *)
| Assign (i j : nat)                    (* i = j *)
| Forward (i : nat)                     (* ++i *)
| Back (i : nat)                        (* --i *)
| Read (i : nat)                        (* the encoded string at i *)
| String_ (i : nat)                     (* the decoded string at i *)
| Same (i j : nat)                      (* i == j *)
| Change (i x : nat) (c : seg_call nat) (* i = x.segments().insert(j, s), and so on *)
| PBegin (i x : nat)                    (* i = x.params().begin() *)
| PEnd (i x : nat)                      (* i = x.params().end() *)
| PFind (i x : nat) (key : str)         (* i = x.params().find(key) *)
| PAssign (i j : nat)                   (* i = j *)
| PForward (i : nat)                    (* ++i *)
| PBack (i : nat)                       (* --i *)
| PRead (i : nat)                       (* the encoded key and value at i *)
| PStrings (i : nat)                    (* the decoded key and value at i *)
| PSame (i j : nat)                     (* i == j *).

(** ** The library *)

Definition keep {I} (i : nat) (p : I) (g : nat -> I) : nat -> I := fun j => if j =? i then p else g j.
Record state := mk_state { s_urls : urls; s_vars : nat -> iter; s_pvars : nat -> piter }.
Definition state0 : state := mk_state (fun _ => url0) (fun _ => no_iter) (fun _ => no_piter).

(** The result of [m] is assigned to [i]. *)
Definition into (i : nat) (m : W iter) (w : state) : outcome answer * state :=
  match m (s_urls w) with
  | (Val p, h) => (Val Done, mk_state h (keep i p (s_vars w)) (s_pvars w))
  | (r, h) => (omap (fun _ => Done) r, mk_state h (s_vars w) (s_pvars w))
  end.
Definition pinto (i : nat) (m : W piter) (w : state) : outcome answer * state :=
  match m (s_urls w) with
  | (Val p, h) => (Val Done, mk_state h (s_vars w) (keep i p (s_pvars w)))
  | (r, h) => (omap (fun _ => Done) r, mk_state h (s_vars w) (s_pvars w))
  end.
Definition make_move (E : env) (m : move) (w : state) : outcome answer * state :=
  let (h, g, l) := w in
  match m with
  | Use x f => let (r, u) := perform E f (h x) in (r, mk_state (put x u h) g l)
  | Begin i x => into i (wbegin E x) w
  | End_ i x => into i (wend E x) w
  | Assign i j => (Val Done, mk_state h (keep i (g j) g) l)
  | Forward i => into i (wincr E (g i)) w
  | Back i => into i (wdecr E (g i)) w
  | Read i => (omap Text (fst (wderef (g i) h)), w)
  | String_ i => (omap Text (fst (wstring (g i) h)), w)
  | Same i j => (omap Truth (wseg_eq E (g i) (g j)), w)
  | Change i x c => into i (wcall E x (call_map g c)) w
  | PBegin i x => pinto i (wpbegin E x) w
  | PEnd i x => pinto i (wpend E x) w
  | PFind i x key => pinto i (wpfind E x key) w
  | PAssign i j => (Val Done, mk_state h g (keep i (l j) l))
  | PForward i => pinto i (wpincr E (l i)) w
  | PBack i => pinto i (wpdecr E (l i)) w
  | PRead i => (omap (fun p => Pairs [p]) (fst (wpderef E (l i) h)), w)
  | PStrings i => (omap (fun p => Pairs [p]) (fst (wpstrings E (l i) h)), w)
  | PSame i j => (omap Truth (wpar_eq E (l i) (l j)), w)
  end.

Inductive hprog :=
| Halt (r : str)
| Then (m : move) (k : answer -> hprog).
Definition hevent : Type := move * answer.
Fixpoint hexec (Es : nat -> env) (n : nat) (p : hprog) (w : state) : list hevent * ending * state :=
  match p with
  | Halt r => ([], Returned r, w)
  | Then m k =>
      let go a w' := let '(t, e, w'') := hexec Es (S n) (k a) w' in ((m, a) :: t, e, w'') in
      match make_move (Es n) m w with
      | (Val a, w') => go a w'
      | (Exn e, w') => go (Error e) w'
      | (_, w') => ([], Crashed, w')
      end
  end.

(** ** The description *)

(** The url and the position; [None]: the iterator must not be used. *)
Definition marks := nat -> option (nat * nat).
Definition mark (i : nat) (m : option (nat * nat)) (k : marks) : marks := fun j => if j =? i then m else k j.
(** The counter of segments is right. *)
Definition right_counter (c : desc) : Prop := c_segs c = length (the_segments (c_uri c)).
Definition right_pcounter (c : desc) : Prop := c_pars c = param_count (c_uri c).
(** [iterable] of SpecIter, which says what the library can iterate over, as a
    function. *)
Definition last_has_value (a : uri) : bool := match rev (raw_params a) with (_, Some _) :: _ => true | _ => false end.
Definition can_iterate (a : uri) : bool :=
  negb (is_some (uri_query a)) || negb (is_some (uri_fragment a)) || last_has_value a.

(** The iterator at segment [j] is still the iterator at segment [j] after the
    url changed from [c] to [c']: segment [j] occupies the same characters. *)
Definition survives (j : nat) (c c' : desc) : bool :=
  (c_segs c' =? length (the_segments (c_uri c'))) && (j <=? length (the_segments (c_uri c'))) &&
  (starts (c_uri c') j =? starts (c_uri c) j) && (starts (c_uri c') (S j) =? starts (c_uri c) (S j)).
(** Where parameter [j] begins, with the "?" or "&" before it, and where its key
    ends; where the query ends if there is no parameter [j]. *)
Definition pstarts (a : uri) (j : nat) : nat :=
  length (front_and_path a) + length (concat (map (fun p => "&"%char :: fst p ++ opt (cons "="%char) (snd p)) (firstn j (raw_params a)))).
Definition pkey (a : uri) (j : nat) : nat :=
  pstarts a j + match nth_error (raw_params a) j with Some (k, _) => S (length k) | None => 0 end.
(** The same for iterators of parameters. *)
Definition psurvives (j : nat) (c c' : desc) : bool :=
  (c_pars c' =? param_count (c_uri c')) && can_iterate (c_uri c') && (j <=? length (params_of (c_uri c'))) &&
  (pstarts (c_uri c') j =? pstarts (c_uri c) j) && (pkey (c_uri c') j =? pkey (c_uri c) j) && (pstarts (c_uri c') (S j) =? pstarts (c_uri c) (S j)).
(** [ok]: which iterators of [x] survive. *)
Definition settle_by (ok : nat -> bool) (x : nat) (k : marks) : marks :=
  fun i => match k i with Some (y, j) => if (y =? x) && negb (ok j) then None else Some (y, j) | None => None end.
Definition settle (x : nat) (c c' : desc) : marks -> marks := settle_by (fun j => survives j c c') x.
Definition psettle (x : nat) (c c' : desc) : marks -> marks := settle_by (fun j => psurvives j c c') x.
(** If the url is destroyed, no iterator survives. *)
Definition settled (x : nat) (f : action) (c c' : desc) (k : marks) : marks :=
  match f with New _ => settle_by (fun _ => false) x k | _ => settle x c c' k end.
Definition psettled (x : nat) (f : action) (c c' : desc) (k : marks) : marks :=
  match f with New _ => settle_by (fun _ => false) x k | _ => psettle x c c' k end.

(** [edit_of k x c e]: all iterators of [c] are valid iterators of [x], and [e] is
    the edit at their positions. *)
Definition edit_of (k : marks) (x : nat) (c : seg_call nat) (e : edit) : Prop :=
  match c, e with
  | CInsert_encoded i s, Insert_encoded p t => k i = Some (x, p) /\ t = s
  | CInsert i s, Insert p t => k i = Some (x, p) /\ t = s
  | CErase i, Erase p => k i = Some (x, p)
  | CErase_range i j, Erase_range p q => k i = Some (x, p) /\ k j = Some (x, q)
  | CReplace_encoded i s, Replace_encoded p t => k i = Some (x, p) /\ t = s
  | CReplace i s, Replace p t => k i = Some (x, p) /\ t = s
  | _, _ => False
  end.

(** All that is known: the urls, and the iterators. *)
Record known := mk_known { k_urls : descs; k_segs : marks; k_pars : marks }.
Definition known0 : known := mk_known (fun _ => desc0) (fun _ => None) (fun _ => None).
Definition marked (i : nat) (m : option (nat * nat)) (s : known) : known := mk_known (k_urls s) (mark i m (k_segs s)) (k_pars s).
Definition pmarked (i : nat) (m : option (nat * nat)) (s : known) : known := mk_known (k_urls s) (k_segs s) (mark i m (k_pars s)).
Definition segments_in (s : known) (x : nat) : list str := the_segments (c_uri (k_urls s x)).
Definition params_in (s : known) (x : nat) : list (str * str) := params_of (c_uri (k_urls s x)).

(** [j] is the position of the first parameter with the decoded key [key]; the end
    if there is none. *)
Definition finds (key : str) (ps : list (str * str)) (j : nat) : Prop :=
  j <= length ps /\ (j < length ps -> decodes (fst (nth j ps ([], []))) key) /\ forall m, m < j -> ~ decodes (fst (nth m ps ([], []))) key.

(** [hallows s m r s']: the move may answer [r] and leave [s']. *)
Inductive hallows (s : known) : move -> answer -> known -> Prop :=
| h_use x f a c : allows (k_urls s x) f a c ->
    hallows s (Use x f) a (mk_known (change x c (k_urls s)) (settled x f (k_urls s x) c (k_segs s)) (psettled x f (k_urls s x) c (k_pars s)))
| h_begin i x : hallows s (Begin i x) Done (marked i (Some (x, 0)) s)
| h_end i x : hallows s (End_ i x) Done (marked i (Some (x, length (segments_in s x))) s)
| h_assign i j : hallows s (Assign i j) Done (marked i (k_segs s j) s)
| h_forward i x j : k_segs s i = Some (x, j) -> hallows s (Forward i) Done (marked i (Some (x, S j)) s)
| h_back i x j : k_segs s i = Some (x, S j) -> hallows s (Back i) Done (marked i (Some (x, j)) s)
| h_read i x j : k_segs s i = Some (x, j) -> hallows s (Read i) (Text (nth j (segments_in s x) [])) s
| h_string i x j t : k_segs s i = Some (x, j) -> decodes (nth j (segments_in s x) []) t -> hallows s (String_ i) (Text t) s
| h_same i j x y p q : k_segs s i = Some (x, p) -> k_segs s j = Some (y, q) -> hallows s (Same i j) (Truth ((x =? y) && (p =? q))) s
| h_change i x c e d : edit_of (k_segs s) x c e -> allows (k_urls s x) (Edit e) Done d ->
    hallows s (Change i x c) Done
      (marked i (Some (x, returned e)) (mk_known (change x d (k_urls s)) (settle x (k_urls s x) d (k_segs s)) (psettle x (k_urls s x) d (k_pars s))))
| h_unchanged i x c e y : edit_of (k_segs s) x c e -> allows (k_urls s x) (Edit e) (Error y) (k_urls s x) -> hallows s (Change i x c) (Error y) s
| h_pbegin i x : hallows s (PBegin i x) Done (pmarked i (Some (x, 0)) s)
| h_pend i x : hallows s (PEnd i x) Done (pmarked i (Some (x, length (params_in s x))) s)
| h_pfind i x key j : finds key (params_in s x) j -> hallows s (PFind i x key) Done (pmarked i (Some (x, j)) s)
| h_passign i j : hallows s (PAssign i j) Done (pmarked i (k_pars s j) s)
| h_pforward i x j : k_pars s i = Some (x, j) -> hallows s (PForward i) Done (pmarked i (Some (x, S j)) s)
| h_pback i x j : k_pars s i = Some (x, S j) -> hallows s (PBack i) Done (pmarked i (Some (x, j)) s)
| h_pread i x j : k_pars s i = Some (x, j) -> hallows s (PRead i) (Pairs [nth j (params_in s x) ([], [])]) s
| h_pstrings i x j k v : k_pars s i = Some (x, j) -> decodes (fst (nth j (params_in s x) ([], []))) k -> decodes (snd (nth j (params_in s x) ([], []))) v ->
    hallows s (PStrings i) (Pairs [(k, v)]) s
| h_psame i j x y p q : k_pars s i = Some (x, p) -> k_pars s j = Some (y, q) -> hallows s (PSame i j) (Truth ((x =? y) && (p =? q))) s.

Inductive hmay : known -> hprog -> list hevent -> str -> known -> Prop :=
| hmay_halt s r : hmay s (Halt r) [] r s
| hmay_then s m p a s1 t r s2 : hallows s m a s1 -> hmay s1 (p a) t r s2 -> hmay s (Then m p) ((m, a) :: t) r s2.

(** ** What a program must not do *)

(** An iterator must be valid when it is used; begin() and end() need a right
    counter, and for parameters a query that can be iterated; it must not leave the
    range, or be read at the end.  string() needs a segment in which "%" begins an
    escape with upper-case digits (C111).  An iterator of parameters cannot be decremented
    to the first one (C25), or over a key with a "&" (C64). *)
Definition hpermitted (d : bool) (s : known) (m : move) : Prop :=
  match m with
  | Use x f => permitted d (k_urls s x) f
  | Begin i x | End_ i x => right_counter (k_urls s x)
  | Assign i j | PAssign i j => True
  | Forward i | Read i => exists x j, k_segs s i = Some (x, j) /\ j < length (segments_in s x)
  | Back i => exists x j, k_segs s i = Some (x, S j)
  | String_ i => exists x j, k_segs s i = Some (x, j) /\ j < length (segments_in s x) /\ upper_text k_pchar (nth j (segments_in s x) [])
  | Same i j => k_segs s i <> None /\ k_segs s j <> None
  | Change i x c => exists e, edit_of (k_segs s) x c e /\ permitted d (k_urls s x) (Edit e)
  | PBegin i x | PEnd i x | PFind i x _ => right_pcounter (k_urls s x) /\ can_iterate (c_uri (k_urls s x)) = true
  | PForward i | PRead i | PStrings i => exists x j, k_pars s i = Some (x, j) /\ j < length (params_in s x)
  | PBack i => exists x j, k_pars s i = Some (x, S (S j)) /\ ~ In "&"%char (fst (nth (S j) (params_in s x) ([], [])))
  | PSame i j => k_pars s i <> None /\ k_pars s j <> None
  end.
Fixpoint hcareful (d : bool) (s : known) (p : hprog) : Prop :=
  match p with
  | Halt _ => True
  | Then m q => hpermitted d s m /\ forall a s', hallows s m a s' -> hcareful d s' (q a)
  end.

(** The urls and iterators [w] are as [s] says. *)
Record described (d : bool) (w : state) (s : known) : Prop := {
  de_urls : forall x, stands d (s_urls w x) (k_urls s x);
  de_segs : forall i x j, k_segs s i = Some (x, j) ->
    right_counter (k_urls s x) /\ j <= length (segments_in s x) /\ points d (s_urls w) x j (s_vars w i);
  de_pars : forall i x j, k_pars s i = Some (x, j) ->
    right_pcounter (k_urls s x) /\ can_iterate (c_uri (k_urls s x)) = true /\ j <= length (params_in s x) /\ ppoints d (s_urls w) x j (s_pvars w i)
}.

Definition hout_of_room (v : hevent) : Prop := match v with (_, Error (bad_alloc | too_large)) => True | _ => False end.
