(** * PropertiesTexts: programs that hold string_views

    [tprog]: a program with any number of urls and of variables of type string_view,
    which chooses every call by the answers to the calls before; [texec Es n p w]: it
    is run by the library.  [tknown]: what every url consists of, the room it has for
    certain, and the characters that every valid view consists of, in a text of the
    program or in a url.  [after]: which views stay valid.  [tallows]: what every call
    answers and does to the descriptions; [tmay]: the program is run on descriptions;
    [tcareful]: it makes only calls that the descriptions permit.  See SpecTexts.v, and
    SpecProgram.v for urls. *)

From Verif Require Import Base ModelChar ModelParts ModelView ModelUrl ModelUrls ModelAlias ModelPieces SpecChar SpecGrammar SpecLink SpecView SpecStore SpecUrl SpecHistory SpecSetters
  SpecIter SpecSegments SpecElems SpecHeld SpecMixed SpecStale SpecUrls SpecAlias ProofsSetters ProofsView ProofsHistory SpecProgram ProofsProgram PropertiesUrls SpecHolder SpecTexts ProofsTexts PropertiesHolder.

(** ** C117 *)

(** No call of a careful program crashes; every answer, the result, the urls and
    the views that are left are those of the descriptions.  In both builds, with any
    allocator. *)
Theorem C117_texts :
  forall (d : bool) (Es : nat -> env) (p : tprog), (forall i, env_ok (Es i) /\ dbg (Es i) = d) -> tcareful d tknown0 p ->
    exists t r w' s', texec Es 0 p tstate0 = (t, Returned r, w') /\ tmay tknown0 p t r s' /\ tdescribed d w' s'.
Proof. exact (fun d Es p HE C => text_programs d Es p HE 0 _ _ (tdescribed0 d) C). Qed.
Print Assumptions C117_texts.
(** From any urls and views that are described. *)
Theorem C117_continued :
  forall (d : bool) (Es : nat -> env) (p : tprog) (n : nat) (w : tstate) (s : tknown), (forall i, env_ok (Es i) /\ dbg (Es i) = d) ->
    tdescribed d w s -> tcareful d s p ->
    exists t r w' s', texec Es n p w = (t, Returned r, w') /\ tmay s p t r s' /\ tdescribed d w' s'.
Proof. exact (fun d Es p n w s HE => text_programs d Es p HE n w s). Qed.
Print Assumptions C117_continued.
(** A view that an accessor returns is within the url and consists of the
    characters that are the answer to the same question. *)
Theorem C117_pieces :
  forall (d : bool) (u : url) (c : desc) (q : accessor), stands d u c ->
    exists o n, piece d (view_of u) q = Val (o, n) /\ o + n <= length (recompose (c_uri c)) /\
      (o, n) = place (c_uri c) q /\ characters d (view_of u) q = Val (firstn n (skipn o (recompose (c_uri c)))) /\
      replies c (asks q) (Text (firstn n (skipn o (recompose (c_uri c))))).
Proof. exact pieces. Qed.
Print Assumptions C117_pieces.
(** So are the views in the elements of [segments()] and [params()], if the url
    counts its segments or parameters correctly and the parameters can be iterated
    over: segment [k], and key and value of parameter [k], if it has a value. *)
Theorem C117_elements :
  forall (d : bool) (u : url) (c : desc) (k : nat), stands d u c ->
    (right_counter c -> k < length (the_segments (c_uri c)) ->
      exists o n, obind (position d u k) (segment_piece (view_of u)) = Val (o, n) /\ o + n <= length (recompose (c_uri c)) /\
        segment_mark 0 (c_uri c) k = KPart 0 o n /\ firstn n (skipn o (recompose (c_uri c))) = nth k (the_segments (c_uri c)) []) /\
    (right_pcounter c -> can_iterate (c_uri c) = true -> k < length (params_of (c_uri c)) ->
      exists o n key val, nth_error (raw_params (c_uri c)) k = Some (key, val) /\
        obind (param_position d (view_of u) k) (key_piece d (view_of u)) = Val (o, n) /\ o + n <= length (recompose (c_uri c)) /\
        key_mark 0 (c_uri c) k = KPart 0 o n /\ firstn n (skipn o (recompose (c_uri c))) = key /\
        match val with
        | None => obind (param_position d (view_of u) k) (value_piece d (view_of u)) = Val None /\ value_mark 0 (c_uri c) k = KText []
        | Some v => exists o' n', obind (param_position d (view_of u) k) (value_piece d (view_of u)) = Val (Some (o', n')) /\
            o' + n' <= length (recompose (c_uri c)) /\ value_mark 0 (c_uri c) k = KPart 0 o' n' /\ firstn n' (skipn o' (recompose (c_uri c))) = v
        end).
Proof. exact elements. Qed.
Print Assumptions C117_elements.
(** The descriptions determine everything, except that memory may run out. *)
Theorem C117_determined :
  forall (s : tknown) (p : tprog) (t1 t2 : list tevent) (r1 r2 : str) (s1 s2 : tknown),
    tmay s p t1 r1 s1 -> tmay s p t2 r2 s2 ->
    Forall (fun v => ~ tout_of_room v) t1 -> Forall (fun v => ~ tout_of_room v) t2 -> t1 = t2 /\ r1 = r2 /\ s1 = s2.
Proof. exact (fun s p t1 t2 r1 r2 s1 s2 M1 M2 => texts_determined s p t1 r1 s1 M1 t2 r2 s2 M2). Qed.
Print Assumptions C117_determined.
(** So two runs of a program, in whatever builds and with whatever allocators, get
    the same answers and the same result. *)
Theorem C117_portable :
  forall (d1 d2 : bool) (Es1 Es2 : nat -> env) (p : tprog) t1 t2 e1 e2 w1 w2,
    (forall i, env_ok (Es1 i) /\ dbg (Es1 i) = d1) -> (forall i, env_ok (Es2 i) /\ dbg (Es2 i) = d2) ->
    tcareful d1 tknown0 p -> tcareful d2 tknown0 p ->
    texec Es1 0 p tstate0 = (t1, e1, w1) -> texec Es2 0 p tstate0 = (t2, e2, w2) ->
    Forall (fun v => ~ tout_of_room v) t1 -> Forall (fun v => ~ tout_of_room v) t2 -> t1 = t2 /\ e1 = e2.
Proof. exact texts_portable. Qed.
Print Assumptions C117_portable.

(** *** A careful program *)

Definition if_done (p : tprog) (a : answer) : tprog := match a with Done => p | _ => TStop [] end.
(** The fragment of "http://h/a/b?q#f" is made longer and shorter again, so that there
    is room.  Views of the host and of the first segment are kept while the host
    becomes the fragment; the path of url 0 becomes that of url 1. *)
Definition then_tell (t : str) : tprog :=
  TThen (TUse 1 (Ask Q_url)) (fun a => match a with
  | Text y => TThen (TUse 0 (Ask Q_url)) (fun a => match a with Text z => TStop (t ++ L "," ++ y ++ L "," ++ z) | _ => TStop [] end)
  | _ => TStop []
  end).
Definition then_show : tprog :=
  TThen (Show 2) (fun a => match a with
  | Text t => TThen (Pass 1 (Set_encoded_path []) 1) (if_done (then_tell t))
  | _ => TStop []
  end).
Definition looking : tprog :=
  TThen (TUse 0 (New two_text)) (if_done (
  TThen (TUse 0 (Call (Set_encoded_fragment (L "fffff")))) (if_done (
  TThen (TUse 0 (Call (Set_encoded_fragment (L "z")))) (if_done (
  TThen (Part 0 0 A_host) (fun _ => TThen (Part 1 0 A_path) (fun _ => TThen (Sub 2 1 1 1) (fun _ =>
  TThen (Pass 0 (Set_encoded_fragment []) 0) (if_done then_show)))))))))).
Lemma two_is a : wf accepted a -> recompose a = two_text -> a = two_uri.
Proof.
  intros W E. assert (M : make_url (plenty true) two_text = Val (the_url true two_text)) by (vm_compute; reflexivity).
  destruct (make_url_inv (plenty true) two_text _ (plenty_ok true) M) as (b & R & Wb & Eb & _).
  rewrite (accepted_unique a b W Wb) by congruence. apply part_texts_inj. exact (rep_unique _ _ _ R (ed_rep _ _ _ (two_editable true))).
Qed.
Local Ltac next A := let r := fresh "r" in let s := fresh "s" in intros r s A; inversion A; subst; clear A.
Local Ltac parsed := match goal with Al : allows _ _ _ _ |- _ => apply new_inv in Al;
  destruct Al as [(K & _)|[(a & h & W & E & _ & _ & -> & ->)|[-> |(_ & -> & _)]]]; [discriminate| |exact I|exact I] end.
Local Ltac called := match goal with Al : allows _ _ _ _ |- _ => inversion Al; subst; clear Al; try exact I end;
  cbn [if_done tcareful]; match goal with St : step _ _ _ |- _ => cbn [with_text step] in St; destruct St as (_ & ->) end.
Lemma tell_careful d s t : tcareful d s (then_tell t).
Proof.
  cbn [tcareful then_tell]. split; [exact I|]. next A.
  match goal with |- context [match ?a with _ => _ end] => destruct a end; try exact I.
  split; [exact I|]. next A.
  match goal with |- context [match ?a with _ => _ end] => destruct a end; exact I.
Qed.
Lemma show_careful d s : tk_vars s 1 = Some (KPart 0 8 4) -> tk_vars s 2 = Some (KPart 0 9 1) -> 12 <= length (whole s 0) ->
  permitted d (tk_urls s 1) (Call (Set_encoded_path (contents s (KPart 0 8 4)))) -> tcareful d s then_show.
Proof.
  intros V1 V2 N P. cbn [tcareful then_show]. split; [exists (KPart 0 9 1); split; [exact V2|right; lia]|]. next A.
  split.
  { exists (KPart 0 8 4). split; [exact V1|]. split; [right; lia|]. split; [discriminate|]. split; [exact P|]. intros K. discriminate K. }
  next A. match goal with H : allows _ _ ?a _ |- _ => destruct a; try exact I end. apply tell_careful.
Qed.
Example C117_careful : forall d, tcareful d tknown0 looking.
Proof.
  intros d. cbn [tcareful looking]. split; [exact I|]. next A. parsed.
  apply two_is in E; [|exact W]. subst a. cbn [if_done tcareful]. 
  split; [split; [exact I|intros K; exact K]|]. next A. called.
  split; [split; [exact I|intros K; exact K]|]. next A. called.
  split; [exact I|]. next A. split; [exact I|]. next A.
  split; [vm_compute; discriminate|]. next A; [|match goal with H : tk_vars _ 1 = Some _ |- _ => vm_compute in H; injection H as <- end; exfalso; match goal with H : mark_size _ < _ |- _ => vm_compute in H; lia end].
  match goal with H : tk_vars _ 1 = Some _ |- _ => vm_compute in H; injection H as <- end.
  split.
  { exists (KPart 0 7 1). split; [vm_compute; reflexivity|]. split; [right; vm_compute; lia|]. split; [discriminate|].
    split; [split; [exact I|intros K; exact K]|]. intros _. right. right.
    split; [intros a' St; cbn [with_text step] in St; destruct St as (_ & ->); vm_compute; lia|left; vm_compute; lia]. }
  next A. match goal with H : tk_vars _ 0 = Some _ |- _ => vm_compute in H; injection H as <- end. called.
  apply show_careful; [vm_compute; reflexivity|vm_compute; reflexivity|vm_compute; lia|split; [exact I|intros K; exact K]].
Qed.
Example C117_example : forall d,
  let '(t, e, w) := texec (fun _ => plenty d) 0 looking tstate0 in
  e = Returned (L "a,/a/b,http://h/a/b?q#h") /\ length t = 11 /\ map snd (firstn 4 (skipn 6 t)) = [Done; Text (L "a"); Done; Text (L "/a/b")].
Proof. intros d. destruct d; vm_compute; auto. Qed.
(** *** What happens otherwise *)

(** Without room the view of the host refers to a buffer that no longer exists. *)
Definition dangling : tprog :=
  TThen (TUse 0 (New two_text)) (fun _ => TThen (Part 0 0 A_host) (fun _ =>
  TThen (TUse 0 (Call (Set_encoded_fragment (L "fffff")))) (fun _ => TThen (Show 0) (fun _ => TStop [])))).
Example C117_dangling : forall d, snd (fst (texec (fun _ => plenty d) 0 dangling tstate0)) = Crashed.
Proof. intros d. destruct d; vm_compute; reflexivity. Qed.
(** A view of the path stays where it is when the user becomes longer, there being
    room; it has other characters then. *)
Definition shifted : tprog :=
  TThen (TUse 0 (New two_text)) (fun _ => TThen (TUse 0 (Call (Set_encoded_fragment (L "fffff")))) (fun _ =>
  TThen (TUse 0 (Call (Set_encoded_fragment (L "z")))) (fun _ => TThen (Part 0 0 A_path) (fun _ =>
  TThen (TUse 0 (Call (Set_encoded_user (L "u")))) (fun _ => TThen (Show 0) (fun a => match a with Text t => TStop t | _ => TStop [] end)))))).
Example C117_shifted : forall d, snd (fst (texec (fun _ => plenty d) 0 shifted tstate0)) = Returned (L "@h/a").
Proof. intros d. destruct d; vm_compute; reflexivity. Qed.
(** A url meets the hypothesis of C117_pieces. *)
Example C117_pieces_holds : forall d,
  stands d (the_url d two_text) (parsed_desc two_uri host_name) /\ place two_uri A_host = (7, 1) /\
  piece d (view_of (the_url d two_text)) A_path = Val (8, 4) /\ place two_uri A_query = (13, 1).
Proof.
  intros d. split; [|destruct d; vm_compute; auto].
  pose proof (ed_rep _ _ _ (two_editable d)) as R. split; [exact R| | | | | |].
  - apply wf_components_of. apply (parsed_wf d two_text two_uri); [destruct d; vm_compute; reflexivity|exact R].
  - destruct d; vm_compute; reflexivity.
  - destruct d; vm_compute; reflexivity.
  - destruct d; vm_compute; reflexivity.
  - intros _. destruct d; eexists; (split; [vm_compute; reflexivity|]); vm_compute; reflexivity.
  - intros _. destruct d; vm_compute; reflexivity.
Qed.
(** A program that takes the second segment of "http://h/a/b?q#f" and makes it the
    scheme of url 1. *)
Definition then_use : tprog :=
  TThen (Show 0) (fun a => match a with
  | Text t => TThen (Pass 1 (Set_scheme []) 0) (if_done (TThen (TUse 1 (Ask Q_url)) (fun a => match a with Text z => TStop (t ++ L "," ++ z) | _ => TStop [] end)))
  | _ => TStop []
  end).
Definition picking : tprog := TThen (TUse 0 (New two_text)) (if_done (TThen (Segment 0 0 1) (if_done then_use))).
Example C117_picking : forall d, tcareful d tknown0 picking /\
  snd (fst (texec (fun _ => plenty d) 0 picking tstate0)) = Returned (L "b,b:").
Proof.
  intros d. split; [|destruct d; vm_compute; reflexivity]. cbn [tcareful picking]. split; [exact I|]. next A. parsed.
  apply two_is in E; [|exact W]. subst a. cbn [if_done tcareful]. split; [split; [vm_compute; reflexivity|vm_compute; lia]|]. next A. cbn [if_done then_use tcareful].
  split; [eexists; split; [vm_compute; reflexivity|right; vm_compute; lia]|]. next A.
  match goal with H : tk_vars _ 0 = Some _ |- _ => vm_compute in H; injection H as <- end. split.
  { eexists. split; [vm_compute; reflexivity|]. split; [right; vm_compute; lia|]. split; [discriminate|]. split; [split; [exact I|intros K; exact K]|]. intros K. discriminate K. }
  next A. match goal with H : allows _ _ ?a _ |- _ => destruct a; try exact I end. cbn [if_done tcareful]. split; [exact I|]. next A.
  match goal with |- context [match ?a with _ => _ end] => destruct a end; exact I.
Qed.
(** Urls that meet the hypotheses of C117_elements; a value without characters, and none. *)
Example C117_elements_holds : forall d,
  stands d (the_url d two_text) (parsed_desc two_uri host_name) /\ right_counter (parsed_desc two_uri host_name) /\ segment_mark 0 two_uri 1 = KPart 0 11 1 /\
  stands d (the_url d params_text) (parsed_desc params_uri host_name) /\ right_pcounter (parsed_desc params_uri host_name) /\ can_iterate params_uri = true /\
  key_mark 0 params_uri 1 = KPart 0 13 1 /\ value_mark 0 params_uri 1 = KPart 0 15 1 /\
  let v := view_of (the_url d (L "http://h?k=&m")) in
  obind (param_position d v 0) (value_piece d v) = Val (Some (11, 0)) /\ obind (param_position d v 1) (value_piece d v) = Val None.
Proof.
  intros d. destruct (C116_kept_holds d) as (S1 & S2 & _). split; [exact S1|]. split; [vm_compute; reflexivity|]. split; [vm_compute; reflexivity|].
  split; [exact S2|]. split; [vm_compute; reflexivity|]. split; [vm_compute; reflexivity|]. split; [vm_compute; reflexivity|]. split; [vm_compute; reflexivity|].
  destruct d; vm_compute; auto.
Qed.
