(** * PropertiesCarry: lists of strings written into a URL

    [written_segments es ss]: the texts [es] are percent-encodings of the byte
    strings [ss]; [written_params] likewise for keys and values.  [carrying]:
    the URL with these segments, each after "/", and these parameters, "k=v"
    separated by "&".  [carries_segments], [carries_params]: a view lists these
    segments, or these parameters, decoded; the latter also finds every parameter
    (SpecCarry.v). *)

From Verif Require Import Base ModelChar ModelParts ModelParse ModelView ModelUrl ModelElems SpecChar SpecGrammar SpecView SpecStore SpecUrl SpecSetters SpecIter SpecCarry ProofsCarry.

(** ** C104: any lists of strings can be carried by a URL *)

(** Whatever way of percent-encoding is used, the text is accepted and a url
    made of it lists the original segments and parameters. *)
Theorem C104_urls_carry_data :
  forall (E : env) (scheme : option str) (au : authority) (es ss : list str) (eps ps : list (str * str)) (frag : option str),
    env_ok E -> good_frame scheme au frag -> written_segments es ss -> written_params eps ps ->
    (exists u, make_url E (recompose (carrying scheme au es eps frag)) = Val u /\
       carries_segments (dbg E) (view_of u) (seg_parse_base (dbg E) (view_of u)) ss /\ carries_params (dbg E) (view_of u) ps) \/
    make_url E (recompose (carrying scheme au es eps frag)) = Exn bad_alloc.
Proof. exact url_carries. Qed.
Print Assumptions C104_urls_carry_data.
(** A url_view lists the parameters, and the segments if there are no
    parameters. *)
Theorem C104_views_carry_data :
  forall (d : bool) (scheme : option str) (au : authority) (es ss : list str) (eps ps : list (str * str)) (frag : option str),
    good_frame scheme au frag -> written_segments es ss -> written_params eps ps ->
    exists v, make_url_view d (recompose (carrying scheme au es eps frag)) = Val v /\
      carries_params d v ps /\ (ps = [] -> carries_segments d v (seg_parse_view d v) ss).
Proof. exact view_carries. Qed.
Print Assumptions C104_views_carry_data.
(** With both, it does not list the segments. *)
Theorem C104_view_segments_refuted :
  exists es ss eps ps, written_segments es ss /\ written_params eps ps /\
    exists v, make_url_view true (recompose (carrying None (mk_authority None (L "h") None) es eps None)) = Val v /\
      ~ carries_segments true v (seg_parse_view true v) ss.
Proof. exact view_loses. Qed.
Print Assumptions C104_view_segments_refuted.
(** Every list of byte strings can be written. *)
Theorem C104_everything_can_be_written :
  forall (ss : list str) (ps : list (str * str)),
    written_segments (map (write seg_char) ss) ss /\
    written_params (map (fun p => (write key_char (fst p), write val_char (snd p))) ps) ps.
Proof. exact (fun ss ps => conj (write_segments ss) (write_params ps)). Qed.
Print Assumptions C104_everything_can_be_written.

Definition ex_segs : list str := [L "a/b"; []; L "100%"; [ascii_of_nat 0; ascii_of_nat 255]].
Definition ex_pairs : list (str * str) := [(L "k&=", L "x=y&z"); ([], []); (L "k&=", L "#?")].
Definition ex_frame : authority := mk_authority None (L "h") None.
Definition ex_text : str :=
  recompose (carrying (Some (L "http")) ex_frame (map (write seg_char) ex_segs) (map (fun p => (write key_char (fst p), write val_char (snd p))) ex_pairs) (Some (L "f"))).
Example C104_example :
  good_frame (Some (L "http")) ex_frame (Some (L "f")) /\
  ex_text = L "http://h/a%2Fb//100%25/%00%FF?k%26%3D=x=y%26z&=&k%26%3D=%23?#f" /\
  exists v, make_url_view true ex_text = Val v /\ at_ true v 9 (L "k&=") = Val (L "x=y&z") /\ count true v 9 (L "k&=") = Val 2.
Proof.
  split; [|split; [vm_compute; reflexivity|]].
  - split; [|split].
    + intros s E. injection E as <-. exists "h"%char, (L "ttp"). auto.
    + split; [discriminate|]. split; [|discriminate]. left. apply pt_char; [reflexivity|constructor].
    + intros f E. injection E as <-. apply pt_char; [reflexivity|constructor].
  - eexists. split; [vm_compute; reflexivity|]. split; vm_compute; reflexivity.
Qed.
