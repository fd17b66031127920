(** * PropertiesSend: a URL composed by one program and read by another

    [compose E p ss q f]: the segments [ss] are inserted one after the other from
    [p] on, then query and fragment are set.  [finds]: what the program that
    receives the text reads (SpecSend.v).  [written_params eps ps]: [eps] are
    percent-encodings of the keys and values [ps]; [query_from eps]: "k=v"
    separated by "&" (SpecCarry.v). *)

From Verif Require Import Base ModelChar ModelParts ModelParse ModelView ModelUrl ModelElems SpecChar SpecGrammar SpecLink SpecView SpecStore SpecUrl SpecHistory SpecSetters SpecIter SpecSegments SpecLaws SpecCarry SpecSend ProofsSend PropertiesSegments.

(** ** C110 *)

(** Starting from any URL with an authority: whatever bytes the segments, keys,
    values and the fragment consist of, the sender succeeds or runs out of
    memory, and every receiver of the text reads the same bytes. *)
Theorem C110_sent_and_received :
  forall (E : env) (a : uri) (u : url) (i : nat) (ss : list str) (p : seg_it) (eps ps : list (str * str)) (f : str),
    env_ok E -> wf accepted a -> uri_authority a <> None -> make_url E (recompose a) = Val u ->
    i <= length (the_segments a) -> position (dbg E) u i = Val p -> ~ (dbg E = true /\ at_end_without_query a i) ->
    written_params eps ps ->
    exists ds, Forall2 decodes (the_segments a) ds /\
      ((exists u' t, compose E p ss (same (query_from eps)) f u = (Val tt, u') /\ encoded_url (view_of u') = Val t /\
          forall E2, env_ok E2 -> finds E2 t a (insert_all i ss ds) ps f) \/
       (exists e u', no_room e /\ compose E p ss (same (query_from eps)) f u = (Exn e, u'))).
Proof. exact sent_and_received. Qed.
Print Assumptions C110_sent_and_received.

Definition sent (d : bool) (base : str) (i : nat) (ss : list str) (ps : list (str * str)) (f : str) : outcome str :=
  let u := made d base in
  let! p := position d u i in
  match compose (plenty d) p ss (same (query_from (map (fun x => (write key_char (fst x), write val_char (snd x))) ps))) f u with
  | (Val _, u') => encoded_url (view_of u')
  | (Abort, _) => Abort
  | _ => UB
  end.
Definition ex_base : uri := mk_uri (Some (L "http")) (Some (mk_authority None (L "h") None)) (L "/api/v1") None None.
Example C110_example :
  wf accepted ex_base /\ recompose ex_base = L "http://h/api/v1" /\ the_segments ex_base = [L "api"; L "v1"] /\
  sent false (L "http://h/api/v1") 2 [L "a/b"; L "../x"; L ""] [(L "k=", L "v&w"); (L "?", L "#")] (L "50%") =
    Val (L "http://h/api/v1/a%2Fb/..%2Fx/?k%3D=v%26w&?=%23#50%25") /\
  sent true (L "http://h/api/v1") 1 [L "a?b"] [] [] = Val (L "http://h/api/a%3Fb/v1").
Proof.
  split; [|split; [reflexivity|split; [reflexivity|split; vm_compute; reflexivity]]].
  split; [|split; [|split; [|split]]]; try discriminate.
  - intros s E. injection E as <-. exists "h"%char, (L "ttp"). auto.
  - intros x E. injection E as <-. split; [discriminate|]. split; [|discriminate]. left. apply pt_char; [reflexivity|constructor].
  - split; [|right; exists (L "api/v1"); reflexivity]. unfold path_text. cbn. do 7 (apply pt_char; [reflexivity|]). constructor.
Qed.
(** The condition excludes appending to a path without query in a debug build,
    where an assertion fires (C28). *)
Example C110_debug_example : sent true (L "http://h/api/v1") 2 [L "x"] [] [] = Abort.
Proof. vm_compute. reflexivity. Qed.
