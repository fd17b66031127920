(** * PropertiesHolder: programs that hold iterators

    [hprog]: a program with any number of urls and of variables for iterators of
    their segments and parameters, which chooses every call by the answers to the
    calls before; [hexec Es n p w]: it is run by the library.  [known]: what every url
    consists of, and the url and the position of every valid iterator.  [survives],
    [psurvives]: which iterators stay valid.  [hallows]: what
    every call answers and does to the descriptions; [hmay]: the program is run on
    descriptions; [hcareful]: it makes only calls that the descriptions permit.  See
    SpecHolder.v, and SpecProgram.v for urls. *)

From Verif Require Import Base ModelChar ModelParts ModelView ModelUrl ModelUrls SpecChar SpecGrammar SpecLink SpecView SpecStore SpecUrl SpecHistory SpecSetters
  SpecIter SpecSegments SpecElems SpecHeld SpecMixed SpecStale SpecUrls ProofsSetters ProofsView ProofsHistory SpecProgram ProofsProgram SpecHolder ProofsHolder PropertiesUrls.

(** ** C116 *)

(** No call of a careful program crashes; every answer, the result, the urls and
    the iterators that are left are those of the descriptions.  In both builds, with
    any allocator. *)
Theorem C116_holders :
  forall (d : bool) (Es : nat -> env) (p : hprog), (forall i, env_ok (Es i) /\ dbg (Es i) = d) -> hcareful d known0 p ->
    exists t r w' s', hexec Es 0 p state0 = (t, Returned r, w') /\ hmay known0 p t r s' /\ described d w' s'.
Proof. exact (fun d Es p HE C => holders d Es p HE 0 _ _ (described0 d) C). Qed.
Print Assumptions C116_holders.
(** From any urls and iterators that are described. *)
Theorem C116_continued :
  forall (d : bool) (Es : nat -> env) (p : hprog) (n : nat) (w : state) (s : known), (forall i, env_ok (Es i) /\ dbg (Es i) = d) ->
    described d w s -> hcareful d s p ->
    exists t r w' s', hexec Es n p w = (t, Returned r, w') /\ hmay s p t r s' /\ described d w' s'.
Proof. exact (fun d Es p n w s HE => holders d Es p HE n w s). Qed.
Print Assumptions C116_continued.
(** The descriptions determine everything, except that memory may run out. *)
Theorem C116_determined :
  forall (s : known) (p : hprog) (t1 t2 : list hevent) (r1 r2 : str) (s1 s2 : known),
    hmay s p t1 r1 s1 -> hmay s p t2 r2 s2 ->
    Forall (fun v => ~ hout_of_room v) t1 -> Forall (fun v => ~ hout_of_room v) t2 -> t1 = t2 /\ r1 = r2 /\ s1 = s2.
Proof. exact (fun s p t1 t2 r1 r2 s1 s2 M1 M2 => held_determined s p t1 r1 s1 M1 t2 r2 s2 M2). Qed.
Print Assumptions C116_determined.
(** So two runs of a program, in whatever builds and with whatever allocators, get
    the same answers and the same result. *)
Theorem C116_portable :
  forall (d1 d2 : bool) (Es1 Es2 : nat -> env) (p : hprog) t1 t2 e1 e2 w1 w2,
    (forall i, env_ok (Es1 i) /\ dbg (Es1 i) = d1) -> (forall i, env_ok (Es2 i) /\ dbg (Es2 i) = d2) ->
    hcareful d1 known0 p -> hcareful d2 known0 p ->
    hexec Es1 0 p state0 = (t1, e1, w1) -> hexec Es2 0 p state0 = (t2, e2, w2) ->
    Forall (fun v => ~ hout_of_room v) t1 -> Forall (fun v => ~ hout_of_room v) t2 -> t1 = t2 /\ e1 = e2.
Proof. exact held_portable. Qed.
Print Assumptions C116_portable.

(** *** Which iterators stay valid *)

(** The iterator at segment [j] stays the iterator at segment [j] if and only if
    [survives] says so. *)
Theorem C116_kept_segments :
  forall (d : bool) (u u' : url) (c c' : desc) (j : nat) (p : seg_it), stands d u c -> stands d u' c' -> right_counter c -> right_counter c' ->
    j <= length (the_segments (c_uri c)) -> j <= length (the_segments (c_uri c')) -> position d u j = Val p ->
    (survives j c c' = true <-> position d u' j = Val p).
Proof. exact kept_segments. Qed.
Print Assumptions C116_kept_segments.
Theorem C116_kept_params :
  forall (d : bool) (u u' : url) (c c' : desc) (j : nat) (p : par_it), stands d u c -> stands d u' c' ->
    right_pcounter c -> right_pcounter c' -> can_iterate (c_uri c) = true -> can_iterate (c_uri c') = true ->
    j <= length (params_of (c_uri c)) -> j <= length (params_of (c_uri c')) -> param_position d (view_of u) j = Val p ->
    (psurvives j c c' = true <-> param_position d (view_of u') j = Val p).
Proof. exact kept_params. Qed.
Print Assumptions C116_kept_params.

(** *** A careful program *)

Definition if_done (p : hprog) (a : answer) : hprog := match a with Done => p | _ => Halt [] end.
(** Variable 0 is at "b" of "http://h/a/b?q#f", before which "x y" is inserted; it is
    decremented, kept while the fragment is replaced, read, and compared with
    end(). *)
Definition holding : hprog :=
  Then (Use 0 (New two_text)) (if_done (
  Then (Begin 0 0) (fun _ => Then (Forward 0) (fun _ =>
  Then (Change 0 0 (CInsert 0 (L "x y"))) (if_done (
  Then (Back 0) (fun _ =>
  Then (Use 0 (Call (Set_encoded_fragment (L "z")))) (if_done (
  Then (String_ 0) (fun a => match a with
  | Text t => Then (Read 0) (fun _ => Then (End_ 1 0) (fun _ => Then (Same 0 1) (fun _ =>
      Then (Use 0 (Ask Q_url)) (fun a => match a with Text y => Halt (t ++ L "," ++ y) | _ => Halt [] end))))
  | _ => Halt []
  end)))))))))).
Lemma two_is a : wf accepted a -> recompose a = two_text -> a = two_uri.
Proof.
  intros W E. assert (M : make_url (plenty true) two_text = Val (the_url true two_text)) by (vm_compute; reflexivity).
  destruct (make_url_inv (plenty true) two_text _ (plenty_ok true) M) as (b & R & Wb & Eb & _).
  rewrite (accepted_unique a b W Wb) by congruence. apply part_texts_inj. exact (rep_unique _ _ _ R (ed_rep _ _ _ (two_editable true))).
Qed.
Local Ltac next A := let r := fresh "r" in let s := fresh "s" in intros r s A; inversion A; subst; clear A.
Local Ltac parsed := match goal with Al : allows _ _ _ _ |- _ => apply new_inv in Al;
  destruct Al as [(K & _)|[(a & h & W & E & _ & _ & -> & ->)|[-> |(_ & -> & _)]]]; [discriminate| |exact I|exact I] end.
Local Ltac same_mark := match goal with H : _ = Some (_, _) |- _ => vm_compute in H; injection H as <- <- end.
Local Ltac fragment_set := match goal with Al : allows _ _ _ _ |- _ => inversion Al; subst; clear Al; try exact I end;
  cbn [if_done hcareful]; match goal with St : step _ _ _ |- _ => cbn [step] in St; destruct St as (_ & ->) end.
Example C116_careful : forall d, hcareful d known0 holding.
Proof.
  intros d. cbn [hcareful holding]. split; [exact I|]. next A. parsed.
  apply two_is in E; [|exact W]. subst a. cbn [if_done hcareful]. split; [reflexivity|]. next A.
  split; [exists 0, 0; split; [reflexivity|vm_compute; lia]|]. next A. same_mark.
  split.
  { exists (Insert 1 (L "x y")). split; [split; reflexivity|]. split; [reflexivity|]. split; [reflexivity|].
    split; [split; [vm_compute; lia|left; reflexivity]|]. split; [|reflexivity]. intros (_ & _ & _ & K). discriminate K. }
  next A; [|exact I].
  match goal with K : edit_of _ _ _ ?e |- _ => destruct e; cbn [edit_of] in K; try contradiction; destruct K as (K & ->); injection K as <- end.
  match goal with Al : allows _ _ _ _ |- _ => inversion Al; subst; clear Al end. cbn [if_done hcareful]. split; [exists 0, 1; reflexivity|].
  next A. match goal with H : _ = Some (_, S _) |- _ => injection H as <- <- end.
  split; [split; [exact I|intros K; exact K]|]. next A. fragment_set.
  split; [exists 0, 1; split; [vm_compute; reflexivity|]; split; [vm_compute; lia|]|].
  { change (upper_text k_pchar (canonical_encoding k_pchar (L "x y"))). apply ProofsChar.canonical_upper_text. }
  next A. split; [exists 0, 1; split; [vm_compute; reflexivity|vm_compute; lia]|].
  next A. split; [vm_compute; reflexivity|].
  next A. split; [split; vm_compute; discriminate|].
  next A. split; [exact I|]. intros r s1 A. destruct r; exact I.
Qed.
Example C116_example : forall d,
  (forall i, env_ok ((fun _ : nat => plenty d) i) /\ dbg ((fun _ : nat => plenty d) i) = d) /\
  let '(t, e, _) := hexec (fun _ => plenty d) 0 holding state0 in
  e = Returned (L "x y,http://h/a/x%20y/b?q#z") /\
  map snd t = [Done; Done; Done; Done; Done; Done; Text (L "x y"); Text (L "x%20y"); Done; Truth false; Text (L "http://h/a/x%20y/b?q#z")].
Proof. intros d. split; [intros i; split; [exact (plenty_ok d)|reflexivity]|]. destruct d; vm_compute; auto. Qed.

(** Parameters: variable 0 is at "m=n" of "http://h?k=v&m=n#f" and is kept while the
    fragment is replaced; variable 1 is decremented from end() to it, variable 2 finds
    it. *)
Definition params_text : str := L "http://h?k=v&m=n#f".
Definition params_uri : uri := mk_uri (Some (L "http")) (Some (mk_authority None (L "h") None)) [] (Some (L "k=v&m=n")) (Some (L "f")).
Definition pholding : hprog :=
  Then (Use 0 (New params_text)) (if_done (
  Then (PBegin 0 0) (fun _ => Then (PForward 0) (fun _ =>
  Then (Use 0 (Call (Set_encoded_fragment (L "long")))) (if_done (
  Then (PRead 0) (fun a => match a with
  | Pairs [(k, v)] => Then (PEnd 1 0) (fun _ => Then (PBack 1) (fun _ => Then (PSame 0 1) (fun _ =>
      Then (PFind 2 0 (L "m")) (fun _ => Then (PSame 1 2) (fun _ => Then (PStrings 2) (fun _ => Halt (k ++ v)))))))
  | _ => Halt []
  end))))))).
Lemma params_is a : wf accepted a -> recompose a = params_text -> a = params_uri.
Proof.
  intros W E. assert (M : make_url (plenty true) params_text = Val (the_url true params_text)) by (vm_compute; reflexivity).
  destruct (make_url_inv (plenty true) params_text _ (plenty_ok true) M) as (b & R & Wb & Eb & _).
  rewrite (accepted_unique a b W Wb) by congruence. apply part_texts_inj. refine (rep_unique _ _ _ R _).
  assert (K : the_url true params_text = st (map Some (concat (part_texts params_uri))) [Some NUL] 18 18 1 (bounds 0 (part_texts params_uri)) 0 2 host_name) by (vm_compute; reflexivity).
  rewrite K. exact (rep_buf (part_texts params_uri) [Some NUL] 18 18 1 0 2 host_name eq_refl ltac:(vm_compute; repeat constructor)).
Qed.
Example C116_careful_params : forall d, hcareful d known0 pholding.
Proof.
  intros d. cbn [hcareful pholding]. split; [exact I|]. next A. parsed.
  apply params_is in E; [|exact W]. subst a. cbn [if_done hcareful]. split; [split; vm_compute; reflexivity|]. next A.
  split; [exists 0, 0; split; [reflexivity|vm_compute; lia]|]. next A. same_mark.
  split; [split; [exact I|intros K; exact K]|]. next A. fragment_set.
  split; [exists 0, 1; split; [vm_compute; reflexivity|vm_compute; lia]|].
  next A. same_mark. cbn [hcareful]. split; [split; vm_compute; reflexivity|]. next A.
  split; [exists 0, 0; split; [vm_compute; reflexivity|]|].
  { assert (K : fst (nth 1 (params_of params_uri) ([], [])) = L "m") by (vm_compute; reflexivity).
    change (~ In "&"%char (fst (nth 1 (params_of params_uri) ([], [])))). rewrite K. intros [X|[]]. discriminate. }
  next A. split; [split; vm_compute; discriminate|]. next A. split; [split; vm_compute; reflexivity|]. next A.
  match goal with F : finds ?k ?l ?n |- _ => assert (Hj : n = 1); [apply (finds_fun k l n 1 F)|subst n] end.
  { split; [vm_compute; lia|]. split.
    - intros _. match goal with |- decodes ?t _ => assert (K : t = L "m") by (vm_compute; reflexivity); rewrite K end.
      apply (dec_char "m"%char); [discriminate|apply dec_nil].
    - intros m Hm K. assert (m = 0) as -> by lia. match type of K with decodes ?t _ => assert (K' : t = L "k") by (vm_compute; reflexivity); rewrite K' in K end.
      inversion K; discriminate. }
  split; [split; vm_compute; discriminate|]. next A. split; [exists 0, 1; split; [vm_compute; reflexivity|vm_compute; lia]|]. intros r s A. exact I.
Qed.
Example C116_example_params : forall d,
  let '(t, e, _) := hexec (fun _ => plenty d) 0 pholding state0 in
  e = Returned (L "mn") /\ map snd t = [Done; Done; Done; Done; Pairs [(L "m", L "n")]; Done; Done; Truth true; Done; Truth true; Pairs [(L "m", L "n")]].
Proof. intros d. destruct d; vm_compute; auto. Qed.
(** An iterator does not survive if the text before it grows, and the iterator
    at the insertion does not survive unless the next segment is as long. *)
Example C116_survival :
  let c := parsed_desc two_uri host_name in
  survives 1 c (edited_desc (Insert 1 (L "x y")) c) = false /\ survives 0 c (edited_desc (Insert 1 (L "x y")) c) = true /\
  survives 1 c (edited_desc (Insert 1 (L "x")) c) = true /\
  survives 0 c (called_desc (Set_scheme (L "https")) c (with_scheme (Some (L "https")) two_uri) host_name) = false /\
  survives 0 c (called_desc (Set_scheme (L "file")) c (with_scheme (Some (L "file")) two_uri) host_name) = true.
Proof. vm_compute. auto. Qed.
(** An iterator of parameters survives a new fragment, and a new query in which
    the parameter is in the same place, not a longer path. *)
Example C116_psurvival :
  let c := parsed_desc params_uri host_name in
  psurvives 1 c (called_desc (Set_encoded_fragment (L "long")) c (with_fragment (Some (L "long")) params_uri) host_name) = true /\
  psurvives 0 c (called_desc (Set_encoded_query (L "x=y&z=long")) c (with_query (Some (L "x=y&z=long")) params_uri) host_name) = true /\
  psurvives 1 c (called_desc (Set_encoded_query (L "x=y&z=long")) c (with_query (Some (L "x=y&z=long")) params_uri) host_name) = false /\
  psurvives 1 c (called_desc (Set_encoded_query (L "x=&yz=n")) c (with_query (Some (L "x=&yz=n")) params_uri) host_name) = false /\
  psurvives 1 c (called_desc (Set_encoded_path (L "/x")) c (mk_uri (uri_scheme params_uri) (uri_authority params_uri) (L "/x") (uri_query params_uri) (uri_fragment params_uri)) host_name) = false.
Proof. vm_compute. auto. Qed.
(** The hypotheses of C116_kept_segments and C116_kept_params. *)
Lemma params_rep d : rep (part_texts params_uri) (the_url d params_text).
Proof.
  assert (K : the_url d params_text = st (map Some (concat (part_texts params_uri))) [Some NUL] 18 18 1 (bounds 0 (part_texts params_uri)) 0 2 host_name) by (destruct d; vm_compute; reflexivity).
  rewrite K. exact (rep_buf (part_texts params_uri) [Some NUL] 18 18 1 0 2 host_name eq_refl ltac:(vm_compute; repeat constructor)).
Qed.
Lemma parsed_wf d s a : make_url (plenty d) s = Val (the_url d s) -> rep (part_texts a) (the_url d s) -> wf accepted a.
Proof.
  intros M R. destruct (make_url_inv (plenty d) s _ (plenty_ok d) M) as (b & Rb & Wb & _). replace a with b; [exact Wb|]. apply part_texts_inj. exact (rep_unique _ _ _ Rb R).
Qed.
Example C116_kept_holds : forall d,
  stands d (the_url d two_text) (parsed_desc two_uri host_name) /\ stands d (the_url d params_text) (parsed_desc params_uri host_name) /\
  right_counter (parsed_desc two_uri host_name) /\ 1 <= length (the_segments two_uri) /\ (exists p, position d (the_url d two_text) 1 = Val p) /\
  right_pcounter (parsed_desc params_uri host_name) /\ can_iterate params_uri = true /\ 1 <= length (params_of params_uri) /\
  (exists p, param_position d (view_of (the_url d params_text)) 1 = Val p).
Proof.
  intros d. split; [|split].
  - pose proof (ed_rep _ _ _ (two_editable d)) as R. split; [exact R| | | | | |].
    + apply wf_components_of. apply (parsed_wf d two_text two_uri); [destruct d; vm_compute; reflexivity|exact R].
    + destruct d; vm_compute; reflexivity.
    + destruct d; vm_compute; reflexivity.
    + destruct d; vm_compute; reflexivity.
    + intros _. destruct d; eexists; (split; [vm_compute; reflexivity|]); vm_compute; reflexivity.
    + intros _. destruct d; vm_compute; reflexivity.
  - pose proof (params_rep d) as R. split; [exact R| | | | | |].
    + apply wf_components_of. apply (parsed_wf d params_text params_uri); [destruct d; vm_compute; reflexivity|exact R].
    + destruct d; vm_compute; reflexivity.
    + destruct d; vm_compute; reflexivity.
    + destruct d; vm_compute; reflexivity.
    + intros _. destruct d; eexists; (split; [vm_compute; reflexivity|]); vm_compute; reflexivity.
    + intros _. destruct d; vm_compute; reflexivity.
  - split; [vm_compute; reflexivity|]. split; [vm_compute; lia|]. split; [destruct d; eexists; vm_compute; reflexivity|].
    split; [vm_compute; reflexivity|]. split; [vm_compute; reflexivity|]. split; [vm_compute; lia|]. destruct d; eexists; vm_compute; reflexivity.
Qed.
