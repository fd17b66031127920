(** * PropertiesWhole: programs that hold iterators and string_views

    [wprog]: a program with any number of urls, of iterators of their segments and
    parameters, and of string_views, which chooses every call by the answers to the
    calls before; [wexec Es n p w]: it is run by the library.  [wknown]: what every
    url consists of, where every valid iterator is, the characters that every valid
    view consists of.  [acted_on]: which of them stay valid.  [wallows]: what every
    call answers and does to the descriptions; [wmay]: the program is run on
    descriptions; [wcareful]: it makes only calls that the descriptions permit.  See
    SpecWhole.v, and SpecHolder.v and SpecTexts.v for its parts. *)

From Verif Require Import Base ModelChar ModelParts ModelView ModelUrl ModelUrls ModelAlias ModelPieces SpecChar SpecGrammar SpecLink SpecView SpecStore SpecUrl SpecHistory SpecSetters
  SpecIter SpecSegments SpecElems SpecHeld SpecMixed SpecStale SpecUrls SpecAlias ProofsSetters ProofsView ProofsHistory SpecProgram ProofsProgram PropertiesUrls SpecHolder SpecTexts ProofsTexts PropertiesHolder
  PropertiesTexts SpecWhole ProofsWhole.

(** ** C118 *)

(** No call of a careful program crashes; every answer, the result, and the urls,
    iterators and views that are left are those of the descriptions.  In both
    builds, with any allocator. *)
Theorem C118_wholes :
  forall (d : bool) (Es : nat -> env) (p : wprog), (forall i, env_ok (Es i) /\ dbg (Es i) = d) -> wcareful d wknown0 p ->
    exists t r w' s', wexec Es 0 p wstate0 = (t, Returned r, w') /\ wmay wknown0 p t r s' /\ wdescribed d w' s'.
Proof. exact (fun d Es p HE C => whole_programs d Es p HE 0 _ _ (wdescribed0 d) C). Qed.
Print Assumptions C118_wholes.
(** From any urls, iterators and views that are described. *)
Theorem C118_continued :
  forall (d : bool) (Es : nat -> env) (p : wprog) (n : nat) (w : wstate) (s : wknown), (forall i, env_ok (Es i) /\ dbg (Es i) = d) ->
    wdescribed d w s -> wcareful d s p ->
    exists t r w' s', wexec Es n p w = (t, Returned r, w') /\ wmay s p t r s' /\ wdescribed d w' s'.
Proof. exact (fun d Es p n w s HE => whole_programs d Es p HE n w s). Qed.
Print Assumptions C118_continued.
(** The descriptions determine everything, except that memory may run out. *)
Theorem C118_determined :
  forall (s : wknown) (p : wprog) (t1 t2 : list wevent) (r1 r2 : str) (s1 s2 : wknown),
    wmay s p t1 r1 s1 -> wmay s p t2 r2 s2 ->
    Forall (fun v => ~ wout_of_room v) t1 -> Forall (fun v => ~ wout_of_room v) t2 -> t1 = t2 /\ r1 = r2 /\ s1 = s2.
Proof. exact (fun s p t1 t2 r1 r2 s1 s2 M1 M2 => wholes_determined s p t1 r1 s1 M1 t2 r2 s2 M2). Qed.
Print Assumptions C118_determined.
(** So two runs of a program, in whatever builds and with whatever allocators, get
    the same answers and the same result. *)
Theorem C118_portable :
  forall (d1 d2 : bool) (Es1 Es2 : nat -> env) (p : wprog) t1 t2 e1 e2 w1 w2,
    (forall i, env_ok (Es1 i) /\ dbg (Es1 i) = d1) -> (forall i, env_ok (Es2 i) /\ dbg (Es2 i) = d2) ->
    wcareful d1 wknown0 p -> wcareful d2 wknown0 p ->
    wexec Es1 0 p wstate0 = (t1, e1, w1) -> wexec Es2 0 p wstate0 = (t2, e2, w2) ->
    Forall (fun v => ~ wout_of_room v) t1 -> Forall (fun v => ~ wout_of_room v) t2 -> t1 = t2 /\ e1 = e2.
Proof. exact wholes_portable. Qed.
Print Assumptions C118_portable.

(** *** A careful program *)

Definition if_ok (p : wprog) (a : answer) : wprog := match a with Done => p | _ => WStop [] end.
Definition tell_last (t : str) : wprog :=
  WThen (View (Show 0)) (fun a => match a with
  | Text y => WThen (Iter (Use 1 (Ask Q_url))) (fun a => match a with Text z => WStop (t ++ L "," ++ y ++ L "," ++ z) | _ => WStop [] end)
  | _ => WStop []
  end).
Definition read_new : wprog := WThen (Iter (Read 2)) (fun a => match a with Text t => tell_last t | _ => WStop [] end).
(** Two urls "http://h/a/b?q#f".  The second segment of url 0 is inserted at the
    beginning of url 1; the iterator that is returned is read, and the view once
    more. *)
Definition both_kinds : wprog :=
  WThen (Iter (Use 0 (New two_text))) (if_ok (
  WThen (Iter (Use 1 (New two_text))) (if_ok (
  WThen (Iter (Begin 0 0)) (fun _ => WThen (Iter (Forward 0)) (fun _ => WThen (View_segment 0 0) (fun _ => WThen (Iter (Begin 1 1)) (fun _ =>
  WThen (Change_view 2 1 (CInsert_encoded 1 []) 0) (if_ok read_new))))))))).

Local Ltac next A := let r := fresh "r" in let s := fresh "s" in intros r s A; inversion A; subst; clear A; try discriminate.
Local Ltac quietly := match goal with H : hallows _ _ _ _ |- _ => inversion H; subst; clear H | H : tallows _ _ _ _ |- _ => inversion H; subst; clear H end.
Local Ltac parsed := match goal with Al : allows _ _ _ _ |- _ => apply new_inv in Al;
  destruct Al as [(K & _)|[(? & ? & ? & ? & _ & _ & -> & ->)|[-> |(_ & -> & _)]]]; [discriminate| |exact I|exact I] end;
  match goal with E : recompose ?a = two_text, W : wf accepted ?a |- _ => apply (two_is a W) in E; subst a; clear W end; cbn [if_ok wcareful].
Lemma tell_careful d s t m : wk_texts s 0 = Some m -> readable (known_views s) m -> wcareful d s (tell_last t).
Proof.
  intros K R. cbn [wcareful tell_last]. split; [exists m; auto|]. next A. quietly.
  split; [exact I|]. next A. match goal with |- context [match ?a with _ => _ end] => destruct a end; exact I.
Qed.
Lemma may_insert d h : permitted d (parsed_desc two_uri h) (Edit (Insert_encoded 0 (L "b"))).
Proof.
  split; [reflexivity|]. split; [reflexivity|]. split; [split; [vm_compute; lia|left; reflexivity]|]. split; [|reflexivity]. intros (_ & _ & _ & K). discriminate K.
Qed.
Lemma read_careful d s m : wk_segs s 2 = Some (1, 1) -> 1 < length (the_segments (c_uri (wk_urls s 1))) -> wk_texts s 0 = Some m -> readable (known_views s) m -> wcareful d s read_new.
Proof.
  intros K Hl T R. cbn [wcareful read_new]. split; [exists 1, 1; auto|]. next A. quietly. apply (tell_careful _ _ _ m); assumption.
Qed.
Lemma insert_careful d s h : wk_segs s 1 = Some (1, 0) -> wk_urls s 1 = parsed_desc two_uri h -> wk_texts s 0 = Some (KPart 0 11 1) -> whole (known_views s) 0 = two_text ->
  wcareful d s (WThen (Change_view 2 1 (CInsert_encoded 1 []) 0) (if_ok read_new)).
Proof.
  intros K U T W. assert (Ct : contents (known_views s) (KPart 0 11 1) = L "b") by (cbn [contents]; rewrite W; vm_compute; reflexivity).
  cbn [wcareful]. split.
  { exists (KPart 0 11 1), (Insert_encoded 0 []). split; [exact T|]. split; [right; rewrite W; vm_compute; lia|]. split; [split; [exact K|reflexivity]|].
    split; [discriminate|]. split; [rewrite Ct, U; apply may_insert|intros X; discriminate X]. }
  next A. rewrite T in *. match goal with H : Some _ = Some ?m |- _ => injection H as <- end. rewrite Ct in *. rewrite U in *.
  match goal with H : edit_of _ _ _ ?e |- _ => destruct e; cbn [edit_of] in H; try contradiction H; destruct H as (H & ->); rewrite K in H; injection H as <- end.
  match goal with H : allows _ _ _ _ |- _ => cbn [edit_text] in H; inversion H; subst; clear H end; try exact I.
  cbn [if_ok edit_text]. apply (read_careful _ _ (KPart 0 11 1)).
  - reflexivity.
  - vm_compute. lia.
  - cbn [result_in with_iters acted_on wk_texts after tk_vars known_views tk_urls]. rewrite T. reflexivity.
  - right. change (12 <= length (whole (known_views s) 0)). rewrite W. vm_compute. lia.
Qed.
Example C118_careful : forall d, wcareful d wknown0 both_kinds.
Proof.
  intros d. cbn [wcareful both_kinds]. split; [exact I|]. next A. parsed. split; [exact I|]. next A. parsed.
  split; [vm_compute; reflexivity|]. next A. quietly.
  split; [exists 0, 0; split; [reflexivity|vm_compute; lia]|]. next A. quietly.
  match goal with H : k_segs _ 0 = Some _ |- _ => vm_compute in H; injection H as <- <- end.
  split; [exists 0, 1; split; [reflexivity|vm_compute; lia]|]. next A. match goal with H : wk_segs _ 0 = Some _ |- _ => vm_compute in H; injection H as <- <- end.
  split; [vm_compute; reflexivity|]. next A. quietly.
  eapply insert_careful; vm_compute; reflexivity.
Qed.
Example C118_example : forall d,
  let '(t, e, w) := wexec (fun _ => plenty d) 0 both_kinds wstate0 in
  e = Returned (L "a,b,http://h/b/a/b?q#f") /\ length t = 10.
Proof. intros d. destruct d; vm_compute; auto. Qed.

(** *** What happens otherwise *)

(** After an insertion behind it, for which there is no room, an iterator is still
    valid; a view of the same segment is not. *)
Definition behind (m : wmove) : wprog :=
  WThen (Iter (Use 0 (New two_text))) (fun _ => WThen (Iter (Begin 0 0)) (fun _ => WThen (View_segment 0 0) (fun _ =>
  WThen (Iter (Begin 1 0)) (fun _ => WThen (Iter (Forward 1)) (fun _ => WThen (Iter (Change 2 0 (CInsert_encoded 1 (L "x")))) (fun _ =>
  WThen m (fun a => match a with Text t => WStop t | _ => WStop [] end))))))).
Example C118_behind : forall d,
  snd (fst (wexec (fun _ => plenty d) 0 (behind (Iter (Read 0))) wstate0)) = Returned (L "a") /\
  snd (fst (wexec (fun _ => plenty d) 0 (behind (View (Show 0))) wstate0)) = Crashed.
Proof. intros d. destruct d; vm_compute; auto. Qed.
(** There are descriptions for C118_continued and C118_determined. *)
Example C118_described : forall d, wdescribed d wstate0 wknown0 /\ (exists t r s, wmay wknown0 both_kinds t r s).
Proof.
  intros d. split; [exact (wdescribed0 d)|].
  destruct (C118_wholes d (fun _ => plenty d) both_kinds (fun _ => conj (plenty_ok d) eq_refl) (C118_careful d)) as (t & r & w & s & _ & M & _). eauto.
Qed.
