(** * PropertiesProgram: programs that use urls

    [prog]: a program that uses any number of urls and chooses every call by the
    answers to the calls before; [exec Es n p h]: it is run by the library.
    [desc]: the description of a url; [allows]: what every function answers and does
    to the description; [may]: the program is run on descriptions.  [careful]: the
    program makes only calls that its descriptions permit.  See SpecProgram.v. *)

From Verif Require Import Base ModelChar ModelParts ModelView ModelUrl ModelUrls SpecChar SpecGrammar SpecLink SpecView SpecStore SpecUrl SpecHistory SpecSetters
  SpecIter SpecSegments SpecHeld SpecMixed SpecStale ProofsSetters ProofsParseProps ProofsView SpecProgram ProofsProgram.

(** ** C115 *)

(** No call of a careful program crashes; every answer, the result and the urls
    that are left are those of the descriptions.  In both builds, with any
    allocator. *)
Theorem C115_programs :
  forall (d : bool) (Es : nat -> env) (p : prog), (forall i, env_ok (Es i) /\ dbg (Es i) = d) -> careful d (fun _ => desc0) p ->
    exists t r h' s', exec Es 0 p (fun _ => url0) = (t, Returned r, h') /\ may (fun _ => desc0) p t r s' /\ forall x, stands d (h' x) (s' x).
Proof. exact (fun d Es p HE C => programs d Es p HE 0 _ _ (fun _ => stands0 d) C). Qed.
Print Assumptions C115_programs.
(** From any urls that are described. *)
Theorem C115_continued :
  forall (d : bool) (Es : nat -> env) (p : prog) (n : nat) (h : urls) (s : descs), (forall i, env_ok (Es i) /\ dbg (Es i) = d) ->
    (forall x, stands d (h x) (s x)) -> careful d s p ->
    exists t r h' s', exec Es n p h = (t, Returned r, h') /\ may s p t r s' /\ forall x, stands d (h' x) (s' x).
Proof. exact (fun d Es p n h s HE => programs d Es p HE n h s). Qed.
Print Assumptions C115_continued.
(** The descriptions determine everything, except that memory may run out. *)
Theorem C115_determined :
  forall (s : descs) (p : prog) (t1 t2 : list event) (r1 r2 : str) (s1 s2 : descs), may s p t1 r1 s1 -> may s p t2 r2 s2 ->
    Forall (fun v => ~ out_of_room v) t1 -> Forall (fun v => ~ out_of_room v) t2 -> t1 = t2 /\ r1 = r2 /\ s1 = s2.
Proof. exact (fun s p t1 t2 r1 r2 s1 s2 M1 M2 => determined s p t1 r1 s1 M1 t2 r2 s2 M2). Qed.
Print Assumptions C115_determined.
(** So two runs of a program, in whatever builds and with whatever allocators, get
    the same answers and the same result. *)
Theorem C115_portable :
  forall (d1 d2 : bool) (Es1 Es2 : nat -> env) (p : prog) t1 t2 e1 e2 h1 h2,
    (forall i, env_ok (Es1 i) /\ dbg (Es1 i) = d1) -> (forall i, env_ok (Es2 i) /\ dbg (Es2 i) = d2) ->
    careful d1 (fun _ => desc0) p -> careful d2 (fun _ => desc0) p ->
    exec Es1 0 p (fun _ => url0) = (t1, e1, h1) -> exec Es2 0 p (fun _ => url0) = (t2, e2, h2) ->
    Forall (fun v => ~ out_of_room v) t1 -> Forall (fun v => ~ out_of_room v) t2 -> t1 = t2 /\ e1 = e2.
Proof. exact portable. Qed.
Print Assumptions C115_portable.

(** *** A careful program *)

(** url 0 is constructed from a text and edited; its decoded host becomes the
    password of url 1, which is default-constructed; the result is the text of both. *)
Definition sample_text : str := L "http://a%20b/x/y?k=v".
Definition sample_prog : prog :=
  Do 0 (New sample_text) (fun a => match a with
  | Done =>
      Do 0 (Edit (Insert 1 (L "1/2"))) (fun _ =>
      Do 0 (Ask Q_host) (fun a => match a with
      | Text s =>
          Do 1 (Call (Set_password s)) (fun _ =>
          Do 1 (Call (Set_encoded_query s)) (fun _ =>
          Do 0 (Ask Q_url) (fun a => match a with
          | Text x => Do 1 (Ask Q_url) (fun a => match a with Text y => Stop (x ++ L " " ++ y) | _ => Stop [] end)
          | _ => Stop []
          end)))
      | _ => Stop []
      end))
  | _ => Stop []
  end).
Lemma sample_parts a : wf accepted a -> recompose a = sample_text -> uri_path a = L "/x/y" /\ uri_query a = Some (L "k=v").
Proof.
  intros W E. destruct (view_full true a W) as (v & M & Sh & _). rewrite E in M. vm_compute in M. injection M as <-. split.
  - pose proof (sh_path _ _ _ Sh) as K. refine (eq_sym (Val_inj _ _ (eq_trans _ K))). vm_compute. reflexivity.
  - pose proof (sh_query_part _ _ _ Sh) as K.
    assert (K' : L "?k=v" = opt (cons "?"%char) (uri_query a)) by (refine (Val_inj _ _ (eq_trans _ K)); vm_compute; reflexivity).
    destruct (uri_query a) as [q|]; [|discriminate K']. injection K' as <-. reflexivity.
Qed.
Example C115_careful : forall d, careful d (fun _ => desc0) sample_prog.
Proof.
  intros d. cbn [careful sample_prog]. split; [exact I|]. intros r c A. apply new_inv in A.
  destruct A as [(K & _)|[(a & h & W & E & _ & _ & -> & ->)|[-> |(_ & -> & _)]]]; [discriminate| |exact I|exact I].
  destruct (sample_parts a W E) as (P & Q). cbn [careful]. split.
  - unfold change. cbn [Nat.eqb permitted parsed_desc c_nul c_segs c_uri c_size]. split; [reflexivity|]. split; [reflexivity|].
    split; [split; [unfold the_segments; rewrite P; cbn; lia|left; rewrite P; reflexivity]|]. split; [|reflexivity].
    intros (_ & _ & _ & K). rewrite Q in K. discriminate.
  - intros _ c _. split; [exact I|]. intros r c2 A. destruct r; cbn [careful]; try exact I. split; [split; exact I || (intros K; exact K)|].
    intros _ c3 _. split; [split; exact I || (intros K; exact K)|]. intros _ c4 _. split; [exact I|].
    intros r5 c5 _. destruct r5; cbn [careful]; try exact I. split; [exact I|]. intros r6 c6 _. destruct r6; exact I.
Qed.
(** set_encoded_query("a b") throws. *)
Example C115_example : forall d,
  (forall i, env_ok ((fun _ : nat => plenty d) i) /\ dbg ((fun _ : nat => plenty d) i) = d) /\
  let '(t, e, _) := exec (fun _ => plenty d) 0 sample_prog (fun _ => url0) in
  e = Returned (L "http://a%20b/x/1%2F2/y?k=v //:a%20b@") /\
  map snd t = [Done; Done; Text (L "a b"); Done; Error invalid_part; Text (L "http://a%20b/x/1%2F2/y?k=v"); Text (L "//:a%20b@")].
Proof. intros d. split; [intros i; split; [exact (plenty_ok d)|reflexivity]|]. destruct d; vm_compute; auto. Qed.
