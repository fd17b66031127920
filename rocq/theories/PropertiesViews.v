(** * PropertiesViews: programs that hold url_views

    [vprog]: a program of SpecWhole that also parses string_views, keeps the
    url_views, copies them, calls their functions and keeps the string_views that
    these return, while the urls whose characters are viewed are modified;
    [vexec Es n p w]: it is run by the library.  [vknown]: what every url, iterator
    and string_view is, and what every url_view consists of.  [vallows]: what every
    call answers and does to the descriptions; [vmay]: the program is run on
    descriptions; [vcareful]: it makes only calls that the descriptions permit.  See
    SpecViews.v, and SpecWhole.v for the rest; SpecLocal.v for which parts a function
    reads. *)

From Verif Require Import Base ModelChar ModelParts ModelView ModelUrl ModelUrls ModelAlias ModelPieces ModelViewPieces SpecChar SpecGrammar SpecLink SpecView SpecStore SpecUrl SpecHistory SpecSetters
  SpecIter SpecSegments SpecElems SpecHeld SpecMixed SpecStale SpecUrls SpecAlias ProofsSetters ProofsView ProofsHistory SpecProgram ProofsProgram PropertiesUrls SpecHolder SpecTexts ProofsTexts PropertiesHolder
  PropertiesTexts SpecWhole ProofsWhole SpecLocal SpecViews ProofsViews.

(** ** C119 *)

(** No call of a careful program crashes; every answer, the result, and the urls,
    iterators, string_views and url_views that are left are those of the
    descriptions.  In both builds, with any allocator. *)
Theorem C119_views :
  forall (d : bool) (Es : nat -> env) (p : vprog), (forall i, env_ok (Es i) /\ dbg (Es i) = d) -> vcareful d vknown0 p ->
    exists t r w' s', vexec Es 0 p vstate0 = (t, Returned r, w') /\ vmay vknown0 p t r s' /\ vdescribed d w' s'.
Proof. exact (fun d Es p HE C => view_programs d Es p HE 0 _ _ (vdescribed0 d) C). Qed.
Print Assumptions C119_views.
(** From any urls, iterators and views that are described. *)
Theorem C119_continued :
  forall (d : bool) (Es : nat -> env) (p : vprog) (n : nat) (w : vstate) (s : vknown), (forall i, env_ok (Es i) /\ dbg (Es i) = d) ->
    vdescribed d w s -> vcareful d s p ->
    exists t r w' s', vexec Es n p w = (t, Returned r, w') /\ vmay s p t r s' /\ vdescribed d w' s'.
Proof. exact (fun d Es p n w s HE => view_programs d Es p HE n w s). Qed.
Print Assumptions C119_continued.
(** The descriptions determine everything, except that memory may run out. *)
Theorem C119_determined :
  forall (s : vknown) (p : vprog) (t1 t2 : list vevent) (r1 r2 : str) (s1 s2 : vknown),
    vmay s p t1 r1 s1 -> vmay s p t2 r2 s2 ->
    Forall (fun v => ~ vout_of_room v) t1 -> Forall (fun v => ~ vout_of_room v) t2 -> t1 = t2 /\ r1 = r2 /\ s1 = s2.
Proof. exact (fun s p t1 t2 r1 r2 s1 s2 M1 M2 => views_determined s p t1 r1 s1 M1 t2 r2 s2 M2). Qed.
Print Assumptions C119_determined.
(** So two runs of a program, in whatever builds and with whatever allocators, get
    the same answers and the same result. *)
Theorem C119_portable :
  forall (d1 d2 : bool) (Es1 Es2 : nat -> env) (p : vprog) t1 t2 e1 e2 w1 w2,
    (forall i, env_ok (Es1 i) /\ dbg (Es1 i) = d1) -> (forall i, env_ok (Es2 i) /\ dbg (Es2 i) = d2) ->
    vcareful d1 vknown0 p -> vcareful d2 vknown0 p ->
    vexec Es1 0 p vstate0 = (t1, e1, w1) -> vexec Es2 0 p vstate0 = (t2, e2, w2) ->
    Forall (fun v => ~ vout_of_room v) t1 -> Forall (fun v => ~ vout_of_room v) t2 -> t1 = t2 /\ e1 = e2.
Proof. exact views_portable. Qed.
Print Assumptions C119_portable.
(** Every accessor of a url_view returns characters of the text that was parsed,
    except that there may be no password; they are those that the components of
    the text give for it. *)
Theorem C119_parts :
  forall (d : bool) (v : view) (a : uri) (q : accessor), wf accepted a -> make_url_view d (recompose a) = Val v ->
    exists t, characters_of_view d v q = Val t /\ replies (parsed_desc a (get_host_type v)) (asks q) (Text t) /\
      match piece_of_view d v q with
      | Val (Some (o, n)) => o + n <= length (recompose a) /\ t = firstn n (skipn o (recompose a))
      | Val None => t = []
      | _ => False
      end.
Proof. exact view_pieces. Qed.
Print Assumptions C119_parts.
(** What [p_offsets] means: as long as a variable has the offsets of a url_view, and
    is not itself parsed or copied to, they and its string_view stay as they are,
    whatever is called; so the url_view has the data pointer that was parsed. *)
Theorem C119_kept :
  forall (E : env) (m : vmove) (w : vstate) (z : nat), m <> Parse z -> (forall y, m <> VCopy z y) ->
    p_offsets (snd (vmake E m w)) z <> None ->
    p_offsets (snd (vmake E m w)) z = p_offsets w z /\ w_texts (p_whole (snd (vmake E m w))) z = w_texts (p_whole w) z.
Proof. exact lasts. Qed.
Print Assumptions C119_kept.

(** *** A careful program *)

Definition vif_ok (p : vprog) (a : answer) : vprog := match a with Done => p | _ => VStop [] end.
Definition ask_both : vprog :=
  VThen (VAsk 0 Q_encoded_host) (fun a => match a with
  | Text t => VThen (Also (Iter (Use 1 (Ask Q_url)))) (fun a => match a with Text z => VStop (t ++ L "," ++ z) | _ => VStop [] end)
  | _ => VStop []
  end).
Definition pass_path : vprog := VThen (VPart 1 0 A_path) (fun _ => VThen (Also (View (Pass 1 (Set_encoded_path []) 1))) (vif_ok ask_both)).
(** The characters of "http://h/a/b?q#f" are viewed and parsed; then the fragment is
    replaced, for which there is room.  The path that the url_view gives becomes
    that of url 1.  The url_view is then asked for the host. *)
Definition kept_view : vprog :=
  VThen (Also (Iter (Use 0 (New two_text)))) (vif_ok (
  VThen (Also (View (Part 0 0 A_url))) (fun _ => VThen (Parse 0) (vif_ok (
  VThen (Also (Iter (Use 0 (Call (Set_encoded_fragment (L "z")))))) (vif_ok pass_path)))))).
(** The url_view 0 is that of "http://h/a/b?q#f", where "http://h/a/b?q#z" is now. *)
Definition half_right (s : vknown) : Prop :=
  texts_of s 0 = Some (KPart 0 0 16) /\ (exists h, vk_parsed s 0 = Some (two_uri, h)) /\ whole (known_views (vk_whole s)) 0 = L "http://h/a/b?q#z".

Local Ltac next A := let r := fresh "r" in let s := fresh "s" in intros r s A; inversion A; subst; clear A; try discriminate.
Local Ltac quietly := repeat match goal with H : wallows _ _ _ _ |- _ => inversion H; subst; clear H; try discriminate | H : hallows _ _ _ _ |- _ => inversion H; subst; clear H; try discriminate
  | H : tallows _ _ _ _ |- _ => inversion H; subst; clear H; try discriminate end.
Lemma half_usable s i j : half_right s -> i <= j -> j <= 7 -> exists h, usable s 0 (KPart 0 0 16) two_uri h (i, j).
Proof.
  intros (T & (h & K) & E) Hi Hj. exists h. unfold usable. split; [exact T|]. split; [exact K|]. split; [reflexivity|]. unfold contents_of, readable. cbn [sub_mark contents fst snd]. rewrite E.
  do 8 (destruct i as [|i]; [do 8 (destruct j as [|j]; [try lia; (split; [vm_compute; lia|vm_compute; reflexivity])|]); lia|]). lia.
Qed.
Lemma ask_both_careful d s : half_right s -> vcareful d s ask_both.
Proof.
  intros Us. destruct (half_usable s 3 4 Us ltac:(lia) ltac:(lia)) as (h & U). cbn [vcareful ask_both]. split; [exists (KPart 0 0 16), two_uri, h; split; [exact U|exact I]|]. next A.
  match goal with |- context [match ?a with _ => _ end] => destruct a end; try exact I.
  split; [exact I|]. next A. match goal with |- context [match ?a with _ => _ end] => destruct a end; exact I.
Qed.
Lemma pass_path_careful d s : half_right s -> tk_urls (known_views (vk_whole s)) 1 = desc0 -> vcareful d s pass_path.
Proof.
  intros Us D. destruct (half_usable s 5 6 Us ltac:(lia) ltac:(lia)) as (h & U). cbn [vcareful pass_path]. split; [exists (KPart 0 0 16), two_uri, h; exact U|]. clear U h. next A.
  destruct Us as (T & (hh & K) & E). match goal with H : texts_of s 0 = Some ?m |- _ => tryif constr_eq m (KPart 0 0 16) then fail else (assert (m = KPart 0 0 16) as -> by congruence) end.
  match goal with H : vk_parsed s 0 = Some (?x, _) |- _ => tryif constr_eq x two_uri then fail else (assert (x = two_uri) as -> by congruence) end.
  split.
  { exists (KPart 0 8 4). split; [reflexivity|]. split; [right; change (12 <= length (whole (known_views (vk_whole s)) 0)); rewrite E; vm_compute; lia|].
    split; [discriminate|]. split; [|intros X; discriminate X].
    change (permitted d (tk_urls (known_views (vk_whole s)) 1) (Call (Set_encoded_path (contents (known_views (vk_whole s)) (KPart 0 8 4))))).
    rewrite D. split; [exact I|intros X; exact X]. }
  next A; quietly; match goal with H : allows _ _ ?a _ |- _ => destruct a; try exact I end; cbn [vif_ok]; apply ask_both_careful;
    (split; [unfold texts_of in T; cbn; rewrite T; reflexivity|split; [exists hh; cbn; exact K|exact E]]).
Qed.
Example C119_careful : forall d, vcareful d vknown0 kept_view.
Proof.
  intros d. cbn [vcareful kept_view]. split; [exact I|]. next A. quietly.
  match goal with Al : allows _ _ _ _ |- _ => apply new_inv in Al;
    destruct Al as [(K & _)|[(a & h & W & E & _ & _ & -> & ->)|[-> |(_ & -> & _)]]]; [discriminate| |exact I|exact I] end.
  apply (two_is a W) in E. subst a. cbn [vif_ok vcareful]. split; [exact I|]. next A. quietly.
  split; [exists (KPart 0 0 16); split; [reflexivity|right; vm_compute; lia]|]. next A; [|exact I].
  match goal with H : texts_of _ _ = Some _ |- _ => vm_compute in H; injection H as <- end.
  match goal with W : wf accepted ?b, E : recompose ?b = _ |- _ => assert (b = two_uri) as -> by (apply (two_is b W); rewrite E; vm_compute; reflexivity) end.
  cbn [vif_ok vcareful]. split; [split; [exact I|intros K; exact K]|]. next A. quietly.
  match goal with Al : allows _ _ _ _ |- _ => inversion Al; subst; clear Al; try exact I end.
  match goal with St : step _ _ _ |- _ => cbn [step] in St; destruct St as (_ & ->) end. cbn [vif_ok]. apply pass_path_careful.
  - split; [vm_compute; reflexivity|]. split; [eexists; cbn; reflexivity|vm_compute; reflexivity].
  - reflexivity.
Qed.
Example C119_example : forall d,
  let '(t, e, w) := vexec (fun _ => plenty d) 0 kept_view vstate0 in e = Returned (L "h,/a/b") /\ length t = 8.
Proof. intros d. destruct d; vm_compute; auto. Qed.

(** *** What happens otherwise *)

(** The url gets a user, for which there is room: the url_view finds other
    characters where the path was; without room it reads a buffer that is gone. *)
Definition view_then (longer : bool) : vprog :=
  VThen (Also (Iter (Use 0 (New two_text)))) (fun _ =>
  VThen (Also (Iter (Use 0 (Call (Set_encoded_fragment (if longer then L "fffff" else L "f")))))) (fun _ =>
  VThen (Also (Iter (Use 0 (Call (Set_encoded_fragment (L "z")))))) (fun _ =>
  VThen (Also (View (Part 0 0 A_url))) (fun _ => VThen (Parse 0) (fun _ =>
  VThen (Also (Iter (Use 0 (Call (Set_encoded_user (L "u")))))) (fun _ =>
  VThen (VAsk 0 Q_path) (fun a => match a with Text t => VStop t | _ => VStop [] end))))))).
Example C119_shifted : forall d,
  snd (fst (vexec (fun _ => plenty d) 0 (view_then true) vstate0)) = Returned (L "@h/a") /\
  snd (fst (vexec (fun _ => plenty d) 0 (view_then false) vstate0)) = Crashed.
Proof. intros d. destruct d; vm_compute; auto. Qed.
(** A view of a text without a password, which is not part of the text. *)
Example C119_parts_holds : forall d,
  (exists v, make_url_view d (recompose two_uri) = Val v /\ piece_of_view d v A_password = Val None /\ piece_of_view d v A_path = Val (Some (8, 4))) /\
  exists v, make_url_view d (L "http://u:p@h/") = Val v /\ piece_of_view d v A_password = Val (Some (9, 1)).
Proof. intros d. destruct d; (split; eexists; split; [vm_compute; reflexivity|vm_compute; auto|vm_compute; reflexivity|vm_compute; reflexivity]). Qed.
(** After a call that leaves the url_view 0, and one that does not. *)
Example C119_kept_holds : forall d,
  let w := snd (vexec (fun _ => plenty d) 0 kept_view vstate0) in
  p_offsets (snd (vmake (plenty d) (Also (View (Literal 1 (L "x")))) w)) 0 <> None /\
  p_offsets (snd (vmake (plenty d) (Also (View (Sub 0 0 1 2))) w)) 0 = None.
Proof. intros d. destruct d; vm_compute; split; [discriminate|reflexivity|discriminate|reflexivity]. Qed.
(** There are descriptions for C119_continued and C119_determined. *)
Example C119_described : forall d, vdescribed d vstate0 vknown0 /\ (exists t r s, vmay vknown0 kept_view t r s).
Proof.
  intros d. split; [exact (vdescribed0 d)|].
  destruct (C119_views d (fun _ => plenty d) kept_view (fun _ => conj (plenty_ok d) eq_refl) (C119_careful d)) as (t & r & w & s & _ & M & _). eauto.
Qed.
