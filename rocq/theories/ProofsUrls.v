(** * ProofsUrls: calls with iterators of any url *)

From Verif Require Import Base ModelChar ModelParts ModelParse ModelView ModelUrl SpecChar SpecGrammar SpecLink SpecView
  ProofsChar ProofsScan ProofsIpv6 ProofsParse ProofsParseUrl ProofsView ProofsRfc SpecStore ProofsMem SpecUrl SpecHistory
  SpecIter ProofsIter ProofsHistory SpecSegments ProofsSegments SpecHeld ProofsHeld ProofsAlias ModelUrls SpecUrls.

(** ** Running on one of the urls *)

Definition acts {A B} (x : nat) (m : W A) (s : U B) (f : B -> A) : Prop :=
  forall h, fst (m h) = omap f (fst (s (h x))) /\ snd (m h) x = snd (s (h x)) /\ (forall y, y <> x -> snd (m h) y = h y).

Lemma acts_bind {A B C D} x (m : W A) (s : U B) f (k : A -> W C) (l : B -> U D) g :
  acts x m s f -> (forall b, acts x (k (f b)) (l b) g) -> acts x (bind m k) (bind s l) g.
Proof.
  intros H1 H2 h. unfold bind. destruct (H1 h) as (E1 & E2 & E3). destruct (m h) as [r h1], (s (h x)) as [r' u1]. cbn [fst snd] in *.
  subst r. destruct r'; cbn [omap fst snd]; auto. destruct (H2 a h1) as (F1 & F2 & F3). rewrite E2 in F1, F2.
  split; [exact F1|]. split; [exact F2|]. intros y Hy. rewrite F3, E3 by exact Hy. reflexivity.
Qed.
Lemma acts_ext {A B} x (m m' : W A) (s s' : U B) f : (forall h, m' h = m h) -> (forall u, s' u = s u) -> acts x m s f -> acts x m' s' f.
Proof. intros H1 H2 H h. rewrite H1, H2. apply H. Qed.
Lemma put_eq x u h : put x u h x = u. Proof. unfold put. rewrite Nat.eqb_refl. reflexivity. Qed.
Lemma put_ne x u h y : y <> x -> put x u h y = h y. Proof. intros H. unfold put. apply Nat.eqb_neq in H. rewrite H. reflexivity. Qed.
Lemma acts_on {A} x (s : U A) : acts x (on x s) s (fun a => a).
Proof.
  intros h. unfold on. destruct (s (h x)) as [r u]. cbn [fst snd]. split; [destruct r; reflexivity|]. split; [apply put_eq|]. apply put_ne.
Qed.
Lemma acts_ret {A B} x (b : B) (f : B -> A) : acts x (ret (f b)) (ret b) f.
Proof. intros h. cbn. auto. Qed.
Lemma acts_lift {A} x (o : outcome A) : acts x (lift o) (lift o) (fun a => a).
Proof. intros h. unfold lift. cbn [fst snd]. split; [destruct o; reflexivity|auto]. Qed.
Lemma acts_through {A} x (f : view -> outcome A) : acts x (through (Some x) f) (observe f) (fun a => a).
Proof. intros h. unfold through, observe. cbn [fst snd]. split; [destruct (f _); reflexivity|auto]. Qed.
(** A look, wrapped. *)
Lemma acts_look {A B} x (f : view -> outcome A) (g : A -> B) : acts x (bind (through (Some x) f) (fun p => ret (g p))) (observe f) g.
Proof. intros h. unfold bind, through, observe, ret. destruct (f (view_of (h x))); cbn [fst snd omap]; auto. Qed.

(** ** The functions of a single url, cut before they look at the text *)

Ltac cases_of x := destruct x as [[?| | | |] ?].
Lemma bind_assoc {S A B C} (m : M S A) (f : A -> M S B) (g : B -> M S C) s : bind (bind m f) g s = bind m (fun a => bind (f a) g) s.
Proof. unfold bind. destruct (m s) as [[]]; reflexivity. Qed.
Lemma bind_ext {S A B} (m : M S A) (f g : A -> M S B) s : (forall a s, f a s = g a s) -> bind m f s = bind m g s.
Proof. intros H. unfold bind. destruct (m s) as [[]]; try reflexivity. apply H. Qed.
Lemma bind_ret {S A B} (a : A) (f : A -> M S B) s : bind (ret a) f s = f a s.
Proof. reflexivity. Qed.
Lemma uassert_true E u : uassert E true u = (Val tt, u).
Proof. apply uassert_ok. reflexivity. Qed.
Lemma asserted {S A} d b (f : unit -> M S A) s : b = true -> bind (lift (oassert d b)) f s = f tt s.
Proof. intros ->. unfold oassert. rewrite andb_false_r. reflexivity. Qed.
Lemma bind_true {A} E (f : unit -> U A) u : bind (uassert E true) f u = f tt u.
Proof. unfold bind. rewrite uassert_true. reflexivity. Qed.

Lemma erase2_cut E first last u :
  seg_erase2 E first last u =
  bind (erase_text E true true first last) (fun b : bool => if b then observe (fun v => seg_parse_base (dbg E) v (si_off first)) else ret first) u.
Proof.
  unfold seg_erase2, erase_text. rewrite bind_assoc. apply bind_ext. intros u0 w. cbn zeta.
  rewrite bind_assoc. apply bind_ext. intros [] w1.
  rewrite bind_assoc, bind_true, bind_assoc, bind_true.
  do 4 (rewrite bind_assoc; apply bind_ext; intros [] ?).
  destruct (si_off last =? si_off first); [reflexivity|]. destruct (si_off last <? si_off first); [reflexivity|].
  rewrite bind_assoc. apply bind_ext. intros c ?. do 2 (rewrite bind_assoc; apply bind_ext; intros [] ?).
  destruct (nseg (u_pt u0) <? c); [reflexivity|].
  do 3 (rewrite bind_assoc; apply bind_ext; intros [] ?). rewrite bind_assoc. apply bind_ext. intros u1 ?.
  rewrite bind_assoc. apply bind_ext. intros [] ?. rewrite bind_assoc. apply bind_ext. intros p ?.
  rewrite bind_assoc. apply bind_ext. intros u2 ?. rewrite bind_assoc. apply bind_ext. intros [] ?. rewrite bind_assoc. apply bind_ext. intros [] ?.
  reflexivity.
Qed.
Lemma insert_cut E p t ns u :
  seg_insert_raw E p t ns u =
  bind (insert_text E true p t ns) (fun _ => observe (fun v => seg_parse_base (dbg E) v (si_off p + (ns + 1)))) u.
Proof.
  unfold seg_insert_raw, insert_text. rewrite bind_assoc. apply bind_ext. intros u0 w. cbn zeta.
  rewrite bind_assoc. apply bind_ext. intros [] w1. rewrite bind_assoc, bind_true.
  do 2 (rewrite bind_assoc; apply bind_ext; intros [] ?). rewrite bind_assoc. apply bind_ext. intros ? ?.
  do 2 (rewrite bind_assoc; apply bind_ext; intros [] ?). rewrite bind_assoc. apply bind_ext. intros u1 ?.
  do 4 (rewrite bind_assoc; apply bind_ext; intros [] ?). reflexivity.
Qed.
Definition replace_cut (E : env) (p : seg_it) (n : nat) (Ins : seg_it -> U seg_it) : U seg_it :=
  (cap <- reserve_text E (si_n p) n ;;
   p1 <- seg_erase E p ;;
   r <- Ins p1 ;;
   same_capacity E cap ;;
   ret r)%monad.
Lemma replace_encoded_cut E p s u :
  seg_replace_encoded E p s u = bind (lift (validate pchar_pct_set s)) (fun _ => replace_cut E p (length s + 1) (fun q => seg_insert_encoded_impl E q s)) u.
Proof.
  unfold seg_replace_encoded, replace_cut, reserve_text, same_capacity. apply bind_ext. intros ? ?.
  rewrite !bind_assoc. apply bind_ext. intros u0 ?. rewrite bind_assoc. apply bind_ext. intros [] ?. rewrite bind_assoc. apply bind_ext. intros [] ?.
  rewrite bind_assoc. apply bind_ext. intros u1 ?. rewrite bind_ret. apply bind_ext. intros p1 ?. apply bind_ext. intros r ?.
  rewrite bind_assoc. reflexivity.
Qed.
Lemma replace_plain_cut E p s u :
  seg_replace E p s u = replace_cut E p (encoded_size pchar_pct_set s + 1) (fun q => seg_insert_impl E q s (encoded_size pchar_pct_set s)) u.
Proof.
  unfold seg_replace, replace_cut, reserve_text, same_capacity.
  rewrite !bind_assoc. apply bind_ext. intros u0 ?. rewrite bind_assoc. apply bind_ext. intros [] ?. rewrite bind_assoc. apply bind_ext. intros [] ?.
  rewrite bind_assoc. apply bind_ext. intros u1 ?. rewrite bind_ret. apply bind_ext. intros p1 ?. apply bind_ext. intros r ?.
  rewrite bind_assoc. reflexivity.
Qed.

(** ** A url's own iterators *)

Section Own.
Variables (E : env) (x : nat).
Notation own := (mk_iter (Some x)).

Lemma same_self : same_url (Some x) (Some x) = true.
Proof. cbn. apply Nat.eqb_refl. Qed.
Lemma own_erase2 first last : acts x (werase2 E x (own first) (own last)) (seg_erase2 E first last) own.
Proof.
  eapply acts_ext; [reflexivity|intros u; apply erase2_cut|]. unfold werase2. cbn [it_v it_at]. rewrite same_self.
  eapply acts_bind; [apply acts_on|]. intros []; [apply acts_look|apply acts_ret].
Qed.
Lemma own_incr p : acts x (wincr E (own p)) (observe (fun v => seg_incr (dbg E) v (seg_parse_base (dbg E) v) p)) own.
Proof. apply acts_look. Qed.
Lemma own_erase p : acts x (werase E x (own p)) (seg_erase E p) own.
Proof. unfold werase, seg_erase. eapply acts_bind; [apply own_incr|]. intros q. apply own_erase2. Qed.
Lemma own_insert p t ns : acts x (winsert_raw E x (own p) t ns) (seg_insert_raw E p t ns) own.
Proof.
  eapply acts_ext; [reflexivity|intros u; apply insert_cut|]. unfold winsert_raw. cbn [it_v it_at]. rewrite same_self.
  eapply acts_bind; [apply acts_on|]. intros []. apply acts_look.
Qed.
Lemma own_insert_encoded_impl p s : acts x (winsert_encoded_impl E x (own p) s) (seg_insert_encoded_impl E p s) own.
Proof. unfold winsert_encoded_impl, seg_insert_encoded_impl. eapply acts_bind; [apply acts_lift|]. intros []. apply own_insert. Qed.
Lemma own_insert_impl p s ns : acts x (winsert_impl E x (own p) s ns) (seg_insert_impl E p s ns) own.
Proof. unfold winsert_impl, seg_insert_impl. eapply acts_bind; [apply acts_lift|]. intros []. apply own_insert. Qed.

Theorem own_call c : acts x (wcall E x (call_map own c)) (scall E c) own.
Proof.
  destruct c as [p s|p s|p|p q|p s|p s]; cbn [call_map wcall scall].
  - unfold winsert_encoded, seg_insert_encoded. eapply acts_bind; [apply acts_lift|]. intros s'. apply own_insert_encoded_impl.
  - apply own_insert_impl.
  - apply own_erase.
  - apply own_erase2.
  - eapply acts_ext; [reflexivity|intros u; apply replace_encoded_cut|]. unfold wreplace_encoded. cbn [it_at].
    eapply acts_bind; [apply acts_lift|]. intros _. unfold replace_cut. eapply acts_bind; [apply acts_on|]. intros cap.
    eapply acts_bind; [apply own_erase|]. intros p1. eapply acts_bind; [apply own_insert_encoded_impl|]. intros r.
    eapply acts_bind; [apply acts_on|]. intros []. apply acts_ret.
  - eapply acts_ext; [reflexivity|intros u; apply replace_plain_cut|]. unfold wreplace. cbn [it_at].
    unfold replace_cut. eapply acts_bind; [apply acts_on|]. intros cap.
    eapply acts_bind; [apply own_erase|]. intros p1. eapply acts_bind; [apply own_insert_impl|]. intros r.
    eapply acts_bind; [apply acts_on|]. intros []. apply acts_ret.
Qed.
End Own.

Lemma own_map x c : Forall (fun p => it_v p = Some x) (iters c) -> call_map (mk_iter (Some x)) (call_map it_at c) = c.
Proof.
  assert (G : forall p, it_v p = Some x -> mk_iter (Some x) (it_at p) = p) by (intros [v q] H; cbn in *; subst; reflexivity).
  destruct c; cbn [iters call_map]; intros H; inversion_clear H; try (inversion_clear H1); rewrite ?G by assumption; reflexivity.
Qed.
Theorem own_calls E x c h : Forall (fun p => it_v p = Some x) (iters c) ->
  fst (wcall E x c h) = omap (mk_iter (Some x)) (fst (scall E (call_map it_at c) (h x))) /\
  snd (wcall E x c h) x = snd (scall E (call_map it_at c) (h x)) /\
  (forall y, y <> x -> snd (wcall E x c h) y = h y).
Proof. intros H. pose proof (own_call E x (call_map it_at c) h) as G. rewrite (own_map x c H) in G. exact G. Qed.

(** ** Other urls are left alone *)

Definition frames {A} (x : nat) (m : W A) : Prop := forall h y, y <> x -> snd (m h) y = h y.
Lemma frames_bind {A B} x (m : W A) (f : A -> W B) : frames x m -> (forall a, frames x (f a)) -> frames x (bind m f).
Proof.
  intros H1 H2 h y Hy. unfold bind. pose proof (H1 h y Hy) as G. destruct (m h) as [[] h1]; cbn [snd] in *; auto.
  rewrite (H2 a h1 y Hy). exact G.
Qed.
Lemma frames_on {A} x (s : U A) : frames x (on x s).
Proof. intros h y Hy. apply (acts_on x s h). exact Hy. Qed.
Lemma frames_through {A} x p (f : view -> outcome A) : frames x (through p f).
Proof. intros h y Hy. destruct p; reflexivity. Qed.
Lemma frames_pure {A} x (o : outcome A) : frames x (lift o). Proof. intros h y Hy. reflexivity. Qed.
Lemma frames_ret {A} x (a : A) : frames x (ret a). Proof. intros h y Hy. reflexivity. Qed.
Ltac framed := repeat (first [apply frames_on | apply frames_through | apply frames_pure | apply frames_ret | apply frames_bind; [|intros ?]
  | match goal with |- frames _ (if ?b then _ else _) => destruct b end ]).
Lemma frames_call E x c : frames x (wcall E x c).
Proof.
  destruct c; cbn [wcall]; unfold winsert_encoded, winsert_encoded_impl, winsert, winsert_impl, wreplace_encoded, wreplace, werase, werase2, wincr, winsert_raw; framed.
Qed.

(** ** Assertions enabled: foreign iterators *)

Lemma foreign_same p x : it_v p <> Some x -> same_url (it_v p) (Some x) = false.
Proof. destruct (it_v p) as [y|]; [|reflexivity]. intros H. cbn. apply Nat.eqb_neq. congruence. Qed.
Lemma uassert_false E u : dbg E = true -> uassert E false u = (Abort, u).
Proof. intros D. unfold uassert, lift, oassert. rewrite D. reflexivity. Qed.

Section Foreign.
Variables (E : env) (x : nat).
Hypothesis D : dbg E = true.

(** [m] stops with an assertion at [h], leaving everything as it is. *)
Definition halts {A} (m : W A) (h : urls) : Prop := exists h', m h = (Abort, h') /\ forall y, h' y = h y.
Lemma put_same h y : put x (h x) h y = h y.
Proof. unfold put. destruct (Nat.eqb_spec y x) as [->|]; reflexivity. Qed.
Lemma halts_on {A B} (s : U A) (k : A -> W B) h : s (h x) = (Abort, h x) -> halts (bind (on x s) k) h.
Proof. intros H. unfold halts, bind, on. rewrite H. eexists. split; [reflexivity|]. intros y. apply put_same. Qed.

Lemma erase_text_halts o1 o2 p q u : o1 && o2 = false -> erase_text E o1 o2 p q u = (Abort, u).
Proof.
  intros H. unfold erase_text, bind at 1 2, get_st. unfold uassert at 1, lift, oassert at 1. rewrite D. cbn [andb].
  destruct (usize u =? st_size (u_st u)); cbn [negb]; [|reflexivity].
  destruct o1; [|unfold bind; rewrite uassert_false by exact D; reflexivity]. destruct o2; [discriminate|].
  unfold bind at 1. rewrite uassert_true. unfold bind. rewrite uassert_false by exact D. reflexivity.
Qed.
Lemma insert_text_halts p t n u : insert_text E false p t n u = (Abort, u).
Proof.
  unfold insert_text, bind at 1 2, get_st. unfold uassert at 1, lift, oassert at 1. rewrite D. cbn [andb].
  destruct (usize u =? st_size (u_st u)); cbn [negb]; [|reflexivity]. unfold bind. rewrite uassert_false by exact D. reflexivity.
Qed.
Lemma erase2_halts p q h : it_v p <> Some x \/ it_v q <> Some x -> halts (werase2 E x p q) h.
Proof.
  intros H. unfold werase2. apply halts_on. apply erase_text_halts. destruct H as [H|H]; apply foreign_same in H; rewrite H; auto using andb_false_r.
Qed.
Lemma insert_halts p t n h : it_v p <> Some x -> halts (winsert_raw E x p t n) h.
Proof. intros H. unfold winsert_raw. rewrite (foreign_same p x H). apply halts_on, insert_text_halts. Qed.

(** Advancing an iterator at a segment of its url. *)
Lemma incr_ok h y i b p : points true h y i p -> editable true (h y) b -> i < length (the_segments b) ->
  exists q, wincr E p h = (Val (mk_iter (Some y) q), h).
Proof.
  intros (Hv & Hp) [R (C & _) _ _] Hi. rewrite (position_pos _ _ b i R C) in Hp by lia. injection Hp as Hp.
  unfold wincr, bind, through. rewrite Hv, <- Hp, D. rewrite (seg_incr_pos _ _ b (rep_holds _ _ R) i Hi). eexists. reflexivity.
Qed.
Lemma erase_halts p h : it_v p <> Some x -> (exists y i b, points true h y i p /\ editable true (h y) b /\ i < length (the_segments b)) ->
  halts (werase E x p) h.
Proof.
  intros H (y & i & b & P & Ed & Hi). destruct (incr_ok h y i b p P Ed Hi) as (q & Eq).
  unfold werase, halts, bind. rewrite Eq. fold (halts (werase2 E x p (mk_iter (Some y) q)) h). apply erase2_halts. left. exact H.
Qed.

Lemma reserve_text_spec a u n0 n : env_ok E -> editable true u a ->
  let need := st_size (u_st u) + n - n0 in
  (fits E u need = true /\ exists u1 cap, reserve_text E n0 n u = (Val cap, u1) /\ editable true u1 a) \/
  (fits E u need = false /\ reserve_text E n0 n u = (Exn bad_alloc, u)).
Proof.
  intros HE Hed need. pose proof Hed as [R (C & C2) T Sz]. unfold reserve_text, bind, get_st.
  rewrite uassert_ok by (intros _; apply Nat.eqb_eq; symmetry; apply Sz; reflexivity).
  destruct (reserve_mem E _ u n0 n HE R T) as [(F & u1 & E1 & R1 & T1 & P1 & S1 & _ & _)|(F & E1)]; rewrite E1; [left|right; auto].
  split; [exact F|]. do 2 eexists. split; [reflexivity|]. split; auto.
  - unfold right_counts, segments_size, params_size in *. cbn [view_of v_pt] in *. rewrite P1. auto.
  - intros _. rewrite S1. unfold usize. rewrite P1. apply Sz. reflexivity.
Qed.

Lemma editable_ext u v a : u = v -> editable true u a -> editable true v a.
Proof. intros ->. auto. Qed.

(** The replacement, with what comes after the erasure left open. *)
Lemma replace_halts a h p n (k : nat -> iter -> W iter) : env_ok E -> editable true (h x) a -> it_v p <> Some x ->
  (exists y i b, points true h y i p /\ editable true (h y) b /\ i < length (the_segments b)) ->
  let m := bind (on x (reserve_text E (si_n (it_at p)) n)) (fun cap => bind (werase E x p) (k cap)) in
  let need := st_size (u_st (h x)) + n - si_n (it_at p) in
  (fits E (h x) need = false -> fst (m h) = Exn bad_alloc) /\ (fits E (h x) need = true -> fst (m h) = Abort) /\
  editable true (snd (m h) x) a.
Proof.
  intros HE Hed Hx (y & i & b & P & Ed & Hi) m need. subst m. unfold bind at 1 3 5. unfold on.
  destruct (reserve_text_spec a (h x) (si_n (it_at p)) n HE Hed) as [(F & u1 & cap & E1 & Ed1)|(F & E1)]; fold need in F; rewrite E1, F.
  2: { split; [reflexivity|]. split; [discriminate|]. cbn [snd]. rewrite put_eq. exact Hed. }
  set (h1 := put x u1 h).
  assert (Hy : y <> x) by (destruct P as (Hv & _); congruence).
  assert (Eh : h1 y = h y) by (apply put_ne; exact Hy).
  destruct (erase_halts p h1 Hx) as (h2 & E2 & S2).
  { exists y, i, b. unfold points. rewrite Eh. auto. }
  split; [discriminate|]. unfold bind. rewrite E2. cbn [fst snd]. split; [reflexivity|]. rewrite S2. unfold h1. rewrite put_eq. exact Ed1.
Qed.
End Foreign.

Theorem foreign_refused E x c h a : env_ok E -> dbg E = true -> editable true (h x) a ->
  Exists (fun p => it_v p <> Some x) (iters c) -> advances true h c ->
  refusal E (h x) c (fst (wcall E x c h)) /\
  editable true (snd (wcall E x c h) x) a /\ (replaces_with c = None -> snd (wcall E x c h) x = h x) /\
  (forall y, y <> x -> snd (wcall E x c h) y = h y).
Proof.
  intros HE D Hed Hf Hadv.
  enough (G : refusal E (h x) c (fst (wcall E x c h)) /\ editable true (snd (wcall E x c h) x) a /\ (replaces_with c = None -> snd (wcall E x c h) x = h x)).
  { destruct G as (G1 & G2 & G3). split; [exact G1|]. split; [exact G2|]. split; [exact G3|]. apply frames_call. }
  assert (Enc : forall s, length (canonical_encoding k_pchar s) = encoded_size pchar_pct_set s).
  { intros s. rewrite <- encode_canonical, encode_length. reflexivity. }
  assert (Hh : forall m : W iter, halts m h -> fst (m h) = Abort /\ snd (m h) x = h x).
  { intros m (h' & -> & Hs). cbn [fst snd]. auto. }
  assert (One : forall p, Exists (fun p => it_v p <> Some x) [p] -> it_v p <> Some x).
  { intros p K. inversion K as [? ? K1|? ? K1]; [exact K1|inversion K1]. }
  assert (Keep : forall m : W iter, fst (m h) = Abort /\ snd (m h) x = h x -> (forall u, has_room E u c = true) -> call_text_valid c ->
     refusal E (h x) c (fst (m h)) /\ editable true (snd (m h) x) a /\ (replaces_with c = None -> snd (m h) x = h x)).
  { intros m (K1 & K2) K3 K4. rewrite K1, K2. split; [|split; [exact Hed|reflexivity]]. split; [intros K; contradiction|]. split; [|reflexivity].
    intros _. rewrite K3. discriminate. }
  destruct c as [p s|p s|p|p q|p s|p s]; cbn [wcall iters advances] in *.
  - destruct (validate_spec k_pchar s) as [(V & Ev)|(V & Ev)]; cbn [set_of] in Ev.
    + apply Keep; [|reflexivity|exact V]. apply Hh. unfold winsert_encoded, halts, bind at 1, lift. rewrite Ev.
      unfold winsert_encoded_impl. rewrite asserted by apply (check_spec k_pchar), V.
      apply (insert_halts E x D p s (length s) h (One p Hf)).
    + unfold winsert_encoded, bind at 1 2 3, lift. rewrite Ev. cbn [fst snd]. split; [|auto]. split; [reflexivity|]. split; intros K; contradiction.
  - apply Keep; [|reflexivity|exact I]. apply Hh. unfold winsert, winsert_impl, halts. rewrite asserted by apply Nat.eqb_refl.
    apply (insert_halts E x D p (encode pchar_pct_set s) (encoded_size pchar_pct_set s) h (One p Hf)).
  - apply Keep; [|reflexivity|exact I]. apply Hh. apply erase_halts; auto.
  - apply Keep; [|reflexivity|exact I]. apply Hh. apply erase2_halts; auto.
    inversion Hf as [? ? K|? ? K]; [left; exact K|right; apply (One q), K].
  - destruct (validate_spec k_pchar s) as [(V & Ev)|(V & Ev)]; cbn [set_of] in Ev.
    + assert (Em : wreplace_encoded E x p s h = bind (on x (reserve_text E (si_n (it_at p)) (length s + 1))) (fun cap => bind (werase E x p)
         (fun p1 => bind (winsert_encoded_impl E x p1 s) (fun r => bind (on x (same_capacity E cap)) (fun _ => ret r)))) h).
      { unfold wreplace_encoded. unfold bind at 1. unfold lift. rewrite Ev. reflexivity. }
      rewrite Em. destruct (replace_halts E x D a h p (length s + 1) (fun cap p1 => bind (winsert_encoded_impl E x p1 s) (fun r => bind (on x (same_capacity E cap)) (fun _ => ret r))) HE Hed (One p Hf) Hadv) as (G1 & G2 & G3).
      split; [|split; [exact G3|discriminate]]. split; [intros K; contradiction|]. split; intros _; unfold has_room; cbn [replaces_with]; assumption.
    + unfold wreplace_encoded, bind at 1 4 7, lift. rewrite Ev. cbn [fst snd]. split; [|auto]. split; [reflexivity|]. split; intros K; contradiction.
  - destruct (replace_halts E x D a h p (encoded_size pchar_pct_set s + 1) (fun cap p1 => bind (winsert_impl E x p1 s (encoded_size pchar_pct_set s)) (fun r => bind (on x (same_capacity E cap)) (fun _ => ret r))) HE Hed (One p Hf) Hadv) as (G1 & G2 & G3).
    split; [|split; [exact G3|discriminate]]. split; [intros K; exfalso; apply K; exact I|].
    split; intros _; unfold has_room; cbn [replaces_with]; rewrite Enc; assumption.
Qed.

(** ** Assertions disabled: iterators of a copy *)

Section Copy.
Variables (E : env) (x y : nat).
Hypothesis D : dbg E = false.

Lemma uassert_off b u : uassert E b u = (Val tt, u).
Proof. apply uassert_ok. rewrite D. discriminate. Qed.
Lemma erase_text_off o1 o2 p q u : erase_text E o1 o2 p q u = erase_text E true true p q u.
Proof.
  unfold erase_text. apply bind_ext. intros u0 w. cbn zeta. apply bind_ext. intros [] w1.
  unfold bind at 1. rewrite uassert_off. unfold bind at 1. rewrite uassert_off. symmetry. rewrite !bind_true. reflexivity.
Qed.
Lemma insert_text_off o p t n u : insert_text E o p t n u = insert_text E true p t n u.
Proof.
  unfold insert_text. apply bind_ext. intros u0 w. cbn zeta. apply bind_ext. intros [] w1.
  unfold bind at 1. rewrite uassert_off. symmetry. rewrite !bind_true. reflexivity.
Qed.

Lemma parse_off d v e o q : seg_parse_to d v e o = Val q -> si_off q = o.
Proof.
  unfold seg_parse_to. destruct (oassert d _); try discriminate. cbn [obind]. destruct (rdc v o); try discriminate. cbn [obind].
  destruct (scan_slash _ _ _); try discriminate. cbn [obind]. intros H. injection H as <-. reflexivity.
Qed.

(** [m] changes the url at [x] as [s] changes a single url, throws when [s]
    throws, and returns iterators of [v]. *)
Definition like (m : W iter) (s : U seg_it) (v : option nat) (h : urls) : Prop :=
  snd (m h) x = snd (s (h x)) /\
  (forall e, fst (s (h x)) = Exn e -> fst (m h) = Exn e) /\
  (forall q, fst (m h) = Val q -> it_v q = v).

Lemma insert_like p p' t n h : si_off p' = si_off (it_at p) -> like (winsert_raw E x p t n) (seg_insert_raw E p' t n) (it_v p) h.
Proof.
  intros Hp. unfold like. rewrite insert_cut. unfold winsert_raw, bind, on. rewrite insert_text_off.
  replace (insert_text E true (it_at p) t n (h x)) with (insert_text E true p' t n (h x)) by (unfold insert_text; rewrite Hp; reflexivity). rewrite Hp.
  destruct (insert_text E true p' t n (h x)) as [r u]. destruct r; cbn [fst snd]; rewrite ?put_eq; try (split; [reflexivity|split; [congruence|discriminate]]).
  unfold observe, through, ret. cbn [fst snd]. destruct (it_v p) as [z|] eqn:Ev.
  - destruct (seg_parse_base (dbg E) (view_of (put x u h z)) (si_off (it_at p) + (n + 1))); cbn [fst snd]; rewrite put_eq;
      (split; [reflexivity|]; split; [intros ? K; exfalso; exact (parse_base_no_throw _ _ _ _ K)|try discriminate; intros q K; injection K as <-; reflexivity]).
  - cbn [fst snd]. rewrite put_eq. split; [reflexivity|]. split; [intros ? K; exfalso; exact (parse_base_no_throw _ _ _ _ K)|discriminate].
Qed.

Variables (a : uri).

Lemma same_positions u v i : rep (part_texts a) u -> rep (part_texts a) v -> seg_pos (view_of u) a i = seg_pos (view_of v) a i.
Proof.
  intros R1 R2. unfold seg_pos. cbn [view_of v_pt]. rewrite (path_off a u R1), (path_off a v R2). reflexivity.
Qed.

(** The state after [erase_text] and the iterator: both looks succeed. *)
Lemma erase2_like i j h : x <> y -> editable false (h x) a -> editable false (h y) a -> rooted (uri_path a) = true \/ 0 < i -> i <= j -> j <= length (the_segments a) ->
  exists u q p, werase2 E x (mk_iter (Some y) (seg_pos (view_of (h x)) a i)) (mk_iter (Some y) (seg_pos (view_of (h x)) a j)) h = (Val (mk_iter (Some y) q), u) /\
    seg_erase2 E (seg_pos (view_of (h x)) a i) (seg_pos (view_of (h x)) a j) (h x) = (Val p, u x) /\ u y = h y /\
    si_off q = si_off (seg_pos (view_of (h x)) a i) /\ si_off p = si_off q.
Proof.
  intros Hxy Hx Hy Hr Hij Hj. pose proof Hx as [R (C & _) T _]. pose proof Hy as [Ry (Cy & _) Ty _].
  assert (Hp : position (dbg E) (h x) i = Val (seg_pos (view_of (h x)) a i)) by (apply position_pos; auto; lia).
  assert (Hq : position (dbg E) (h x) j = Val (seg_pos (view_of (h x)) a j)) by (apply position_pos; auto).
  pose proof Hx as Hx'. rewrite <- D in Hx'.
  destruct (erase2_ok E (h x) a i j _ _ Hx' Hr Hij Hj Hp Hq) as (G & _).
  specialize (G ltac:(rewrite D; intros (K & _); discriminate)).
  destruct G as [(_ & u' & p & Em & _)|(K & _)]; [|discriminate].
  set (pi := seg_pos (view_of (h x)) a i) in *. set (pj := seg_pos (view_of (h x)) a j) in *.
  assert (Ey : seg_parse_base (dbg E) (view_of (h y)) (si_off pi) = Val pi).
  { unfold pi. rewrite (same_positions (h x) (h y) i R Ry). rewrite D. apply (parse_position false (h y) a i Ry Ty ltac:(lia)). intros (K & _). discriminate. }
  rewrite Em. rewrite erase2_cut in Em. unfold werase2, bind, on in *. cbn [it_v it_at] in *. rewrite erase_text_off.
  destruct (erase_text E true true pi pj (h x)) as [r u1]. destruct r as [b| | | |]; try discriminate.
  destruct b.
  - unfold observe in Em. injection Em as Em1 Em2. apply parse_off in Em1. unfold through. rewrite (put_ne x u1 h y) by congruence. rewrite Ey.
    exists (put x u1 h), pi, p. unfold ret. rewrite put_eq, Em2. rewrite put_ne by congruence. rewrite Em1. auto.
  - unfold ret in Em. injection Em as Em1 Em2. exists (put x u1 h), pi, p. unfold ret. rewrite put_eq, Em2, Em1. rewrite put_ne by congruence. auto.
Qed.
Lemma erase_like i h : x <> y -> editable false (h x) a -> editable false (h y) a -> rooted (uri_path a) = true \/ 0 < i -> i < length (the_segments a) ->
  exists u q p, werase E x (mk_iter (Some y) (seg_pos (view_of (h x)) a i)) h = (Val (mk_iter (Some y) q), u) /\
    seg_erase E (seg_pos (view_of (h x)) a i) (h x) = (Val p, u x) /\ u y = h y /\
    si_off q = si_off (seg_pos (view_of (h x)) a i) /\ si_off p = si_off q.
Proof.
  intros Hxy Hx Hy Hr Hi. pose proof Hx as [R (C & _) T _]. pose proof Hy as [Ry (Cy & _) Ty _].
  rewrite (erase_is E (h x) a i _ R C Hi eq_refl). unfold werase, bind, wincr, through. cbn [it_v it_at].
  unfold bind. rewrite (same_positions (h x) (h y) i R Ry). rewrite (seg_incr_pos _ _ a (rep_holds _ _ Ry) i Hi). cbn [ret].
  rewrite <- (same_positions (h x) (h y) i R Ry), <- (same_positions (h x) (h y) (S i) R Ry). unfold ret.
  apply erase2_like; auto.
Qed.

Lemma replace_like i n Ins WIns h :
  env_ok E -> x <> y -> editable false (h x) a -> editable false (h y) a -> rooted (uri_path a) = true \/ 0 < i -> i < length (the_segments a) ->
  (forall p p' g, si_off p' = si_off (it_at p) -> like (WIns p) (Ins p') (it_v p) g) ->
  like (bind (on x (reserve_text E (si_n (seg_pos (view_of (h x)) a i)) n)) (fun cap => bind (werase E x (mk_iter (Some y) (seg_pos (view_of (h x)) a i)))
     (fun p1 => bind (WIns p1) (fun r => bind (on x (same_capacity E cap)) (fun _ => ret r)))))
    (replace_cut E (seg_pos (view_of (h x)) a i) n Ins) (Some y) h.
Proof.
  intros HE Hxy Hx Hy Hr Hi HI. pose proof Hx as [R (C & C2) T _]. unfold like, replace_cut. set (pi := seg_pos (view_of (h x)) a i).
  assert (Er : (exists u1 cap, reserve_text E (si_n pi) n (h x) = (Val cap, u1) /\ editable false u1 a) \/ reserve_text E (si_n pi) n (h x) = (Exn bad_alloc, h x)).
  { unfold reserve_text, bind, get_st. rewrite uassert_off.
    destruct (reserve_mem E _ (h x) (si_n pi) n HE R T) as [(F & u1 & E1 & R1 & T1 & P1 & S1 & _ & _)|(F & E1)]; rewrite E1; [left|right; reflexivity].
    do 2 eexists. split; [reflexivity|]. split; [exact R1| |exact T1|discriminate].
    unfold right_counts, segments_size, params_size in *. cbn [view_of v_pt] in *. rewrite P1. auto. }
  destruct Er as [(u1 & cap & Er & Hx1)|Er].
  2: { unfold bind, on. rewrite Er. cbn [fst snd]. rewrite put_eq. split; [reflexivity|].
    split; [intros e K; injection K as <-; reflexivity|discriminate]. }
  set (h1 := put x u1 h). assert (H1x : h1 x = u1) by apply put_eq. assert (H1y : h1 y = h y) by (apply put_ne; congruence).
  assert (Epi : seg_pos (view_of (h1 x)) a i = pi). { unfold pi. apply same_positions; [rewrite H1x; apply Hx1|exact R]. }
  destruct (erase_like i h1) as (h2 & q & p & E1 & E2 & E3 & E4 & E5); [exact Hxy|rewrite H1x; exact Hx1|rewrite H1y; exact Hy|exact Hr|exact Hi|].
  rewrite Epi in E1, E2. rewrite H1x in E2.
  assert (Es : bind (reserve_text E (si_n pi) n) (fun cap => bind (seg_erase E pi) (fun p1 => bind (Ins p1) (fun r => bind (same_capacity E cap) (fun _ => ret r)))) (h x)
    = bind (Ins p) (fun r => bind (same_capacity E cap) (fun _ => ret r)) (h2 x)).
  { unfold bind at 1. rewrite Er. unfold bind at 1. rewrite E2. reflexivity. }
  assert (Ew : bind (on x (reserve_text E (si_n pi) n)) (fun cap => bind (werase E x (mk_iter (Some y) pi)) (fun p1 => bind (WIns p1) (fun r => bind (on x (same_capacity E cap)) (fun _ => ret r)))) h
    = bind (WIns (mk_iter (Some y) q)) (fun r => bind (on x (same_capacity E cap)) (fun _ => ret r)) h2).
  { unfold bind at 1, on at 1. rewrite Er. unfold bind at 1. fold h1. rewrite E1. reflexivity. }
  rewrite Es, Ew. destruct (HI (mk_iter (Some y) q) p h2 E5) as (G1 & G2 & G3). cbn [it_v] in *. unfold bind, on, same_capacity, bind, get_st, ret.
  destruct (WIns (mk_iter (Some y) q) h2) as [r h3], (Ins p (h2 x)) as [r' u3]. cbn [fst snd] in *.
  destruct r as [q1| e1| | |], r' as [p1|e2| | |]; cbn [fst snd]; try (specialize (G2 _ eq_refl); discriminate); try discriminate;
    rewrite ?uassert_off; cbn [fst snd]; rewrite ?put_eq; (split; [exact G1|]; split; [try discriminate; try exact G2|try discriminate; try exact G3]).
Qed.

Lemma like_ext m m' s s' v h : m' h = m h -> s' (h x) = s (h x) -> like m s v h -> like m' s' v h.
Proof. unfold like. intros -> ->. auto. Qed.

Theorem copy_like e pos h : env_ok E -> x <> y -> editable false (h x) a -> editable false (h y) a -> in_range e a -> text_valid e ->
  (forall i, i <= length (the_segments a) -> points false h y i (pos i)) ->
  like (wcall E x (with_positions pos e)) (run_edit E e) (Some y) h.
Proof.
  intros HE Hxy Hx Hy (Hr1 & Hr2) Ht Hpos. pose proof Hx as [R (C & _) T _]. pose proof Hy as [Ry (Cy & _) Ty _].
  assert (Ep : forall i, i <= length (the_segments a) -> pos i = mk_iter (Some y) (seg_pos (view_of (h x)) a i)).
  { intros i Hi. destruct (Hpos i Hi) as (K1 & K2). rewrite (position_pos _ _ a i Ry Cy Hi) in K2. injection K2 as K2.
    destruct (pos i) as [v q]. cbn in *. subst v. rewrite (same_positions (h x) (h y) i R Ry), K2. reflexivity. }
  assert (Hat : forall i, i <= length (the_segments a) -> position (dbg E) (h x) i = Val (seg_pos (view_of (h x)) a i)) by (intros; apply position_pos; auto).
  assert (Hbad : forall s, upper_text k_pchar s -> validate pchar_pct_set s = Val s).
  { intros s V. destruct (validate_spec k_pchar s) as [(_ & Ev)|(K & _)]; [exact Ev|contradiction]. }
  assert (Hm : forall S A b (f : unit -> M S A) s, bind (lift (oassert (dbg E) b)) f s = f tt s) by (intros; rewrite D; reflexivity).
  assert (Hie : forall s p p' g, si_off p' = si_off (it_at p) -> like (winsert_encoded_impl E x p s) (seg_insert_encoded_impl E p' s) (it_v p) g).
  { intros s p p' g Hp. eapply like_ext; [apply Hm|apply Hm|]. apply insert_like. exact Hp. }
  assert (Hip : forall s ns p p' g, si_off p' = si_off (it_at p) -> like (winsert_impl E x p s ns) (seg_insert_impl E p' s ns) (it_v p) g).
  { intros s ns p p' g Hp. eapply like_ext; [apply Hm|apply Hm|]. apply insert_like. exact Hp. }
  destruct e as [i s|i s|i|i j|i s|i s]; cbn [with_positions wcall run_edit edit_at edit_to text_valid] in *; rewrite (Ep i) by lia.
  - eapply like_ext; [| |apply (Hie s (mk_iter (Some y) (seg_pos (view_of (h x)) a i)) (seg_pos (view_of (h x)) a i) h eq_refl)].
    + unfold winsert_encoded, bind at 1, lift. rewrite (Hbad s Ht). reflexivity.
    + unfold bind at 1, at_position. rewrite (Hat i) by lia. unfold seg_insert_encoded, bind at 1, lift. rewrite (Hbad s Ht). reflexivity.
  - eapply like_ext; [| |apply (Hip s (encoded_size pchar_pct_set s) (mk_iter (Some y) (seg_pos (view_of (h x)) a i)) (seg_pos (view_of (h x)) a i) h eq_refl)].
    + reflexivity.
    + unfold bind at 1, at_position. rewrite (Hat i) by lia. reflexivity.
  - destruct (erase_like i h Hxy Hx Hy Hr2 ltac:(lia)) as (u & q & p & E1 & E2 & E3 & _). unfold like, bind at 1 2, at_position. rewrite (Hat i) by lia.
    rewrite E1, E2. cbn [fst snd]. split; [reflexivity|]. split; [discriminate|]. intros q0 K. injection K as <-. reflexivity.
  - rewrite (Ep j) by lia. destruct (erase2_like i j h Hxy Hx Hy Hr2 ltac:(lia) ltac:(lia)) as (u & q & p & E1 & E2 & E3 & _).
    unfold like, bind, at_position. rewrite (Hat i), (Hat j) by lia.
    rewrite E1, E2. cbn [fst snd]. split; [reflexivity|]. split; [discriminate|]. intros q0 K. injection K as <-. reflexivity.
  - eapply like_ext; [| |apply (replace_like i (length s + 1) (fun q => seg_insert_encoded_impl E q s) (fun q => winsert_encoded_impl E x q s) h HE Hxy Hx Hy Hr2 ltac:(lia) (Hie s))].
    + unfold wreplace_encoded, bind at 1, lift. rewrite (Hbad s Ht). reflexivity.
    + unfold bind at 1, at_position. rewrite (Hat i) by lia. rewrite replace_encoded_cut. unfold bind at 1, lift. rewrite (Hbad s Ht). reflexivity.
  - eapply like_ext; [| |apply (replace_like i (encoded_size pchar_pct_set s + 1) (fun q => seg_insert_impl E q s (encoded_size pchar_pct_set s)) (fun q => winsert_impl E x q s (encoded_size pchar_pct_set s)) h HE Hxy Hx Hy Hr2 ltac:(lia) (Hip s _))].
    + reflexivity.
    + unfold bind at 1, at_position. rewrite (Hat i) by lia. apply replace_plain_cut.
Qed.
End Copy.

Theorem copy_edited E x y e pos h a : env_ok E -> dbg E = false -> x <> y -> editable false (h x) a -> editable false (h y) a ->
  in_range e a -> text_valid e -> (forall i, i <= length (the_segments a) -> points false h y i (pos i)) ->
  let m := wcall E x (with_positions pos e) h in
  (fits E (h x) (edit_need e (h x) a) = true -> editable false (snd m x) (with_segments (list_edit e (the_segments a)) a)) /\
  (fits E (h x) (edit_need e (h x) a) = false -> fst m = Exn bad_alloc /\ snd m x = h x) /\
  (forall q, fst m = Val q -> it_v q = Some y) /\ (forall z, z <> x -> snd m z = h z).
Proof.
  intros HE D Hxy Hx Hy Hin Ht Hpos m. destruct (copy_like E x y D a e pos h HE Hxy Hx Hy Hin Ht Hpos) as (G1 & G2 & G3). fold m in G1, G2, G3.
  pose proof Hx as Hx'. rewrite <- D in Hx'. destruct (edit_ok E (h x) a e HE Hx' Hin) as (K & _ & _).
  specialize (K Ht ltac:(intros (D' & _); congruence)).
  split; [|split; [|split; [exact G3|apply frames_call]]].
  - intros F. destruct K as [(_ & u' & p & Em & Hed & _)|(F' & _)]; [|congruence]. rewrite D in Hed. rewrite G1, Em. exact Hed.
  - intros F. destruct K as [(F' & _)|(_ & Em)]; [congruence|]. rewrite Em in G1, G2. split; [apply G2; reflexivity|exact G1].
Qed.

(** ** Comparison *)

Lemma same_url_spec p q : same_url p q = true <-> p = q.
Proof. destruct p, q; cbn; split; try congruence; rewrite ?Nat.eqb_eq; congruence. Qed.
Lemma same_url_refl p : same_url p p = true. Proof. apply same_url_spec. reflexivity. Qed.

Theorem segments_compared E h c x y i j p q : (forall z, editable (dbg E) (h z) (c z)) ->
  i <= length (the_segments (c x)) -> j <= length (the_segments (c y)) -> points (dbg E) h x i p -> points (dbg E) h y j q ->
  wseg_eq E p q = Val ((x =? y) && (i =? j)).
Proof.
  intros Hc Hi Hj (V & P) (V' & P'). unfold wseg_eq. rewrite V, V'. cbn [same_url].
  destruct (Nat.eqb_spec x y) as [<-|Hne]; cbn [negb orb andb]; [|unfold oassert; rewrite andb_false_r; reflexivity].
  destruct (Hc x) as [R (C & _) _ _].
  rewrite (position_pos _ _ _ i R C Hi) in P. rewrite (position_pos _ _ _ j R C Hj) in P'. injection P as P. injection P' as P'.
  pose proof (seg_eq_pos (dbg E) (view_of (h x)) (c x) i j Hi Hj) as G. rewrite P, P' in G. exact G.
Qed.
Lemma nobody_equals E p : it_v p <> None -> wseg_eq E no_iter p = Val false /\ wseg_eq E p no_iter = Val false.
Proof. intros H. unfold wseg_eq, oassert. destruct (it_v p); [|contradiction]. cbn. rewrite andb_false_r. auto. Qed.
Lemma nobody_equals_param E p : pi_v p <> None -> wpar_eq E no_piter p = Val false /\ wpar_eq E p no_piter = Val false.
Proof. intros H. unfold wpar_eq, oassert. destruct (pi_v p); [|contradiction]. cbn. rewrite andb_false_r. auto. Qed.
Theorem params_compared E h c x y i j p q : (forall z, shown (view_of (h z)) (c z) /\ iterable (c z)) ->
  i <= length (params_of (c x)) -> j <= length (params_of (c y)) -> ppoints (dbg E) h x i p -> ppoints (dbg E) h y j q ->
  wpar_eq E p q = Val ((x =? y) && (i =? j)).
Proof.
  intros Hc Hi Hj (V & P) (V' & P'). unfold wpar_eq. rewrite V, V'. cbn [same_url].
  destruct (Nat.eqb_spec x y) as [<-|Hne]; cbn [negb orb andb]; [|unfold oassert; rewrite andb_false_r; reflexivity].
  destruct (Hc x) as (S1 & I1). destruct (shown_inv _ _ S1) as (H & C & U). pose proof (params_positions (dbg E) _ _ H C U I1) as Q.
  rewrite (param_position_pos _ _ _ i S1 I1 Hi) in P. rewrite (param_position_pos _ _ _ j S1 I1 Hj) in P'. injection P as P. injection P' as P'.
  pose proof (ps_eq _ _ _ _ _ _ _ Q i j Hi Hj) as G. rewrite P, P' in G. exact G.
Qed.

(** ** Own iterators, by position *)

Theorem own_edits E x e pos h a : editable (dbg E) (h x) a -> in_range e a ->
  (forall i, i <= length (the_segments a) -> points (dbg E) h x i (pos i)) ->
  let m := wcall E x (with_positions pos e) h in
  fst m = omap (mk_iter (Some x)) (fst (run_edit E e (h x))) /\ snd m x = snd (run_edit E e (h x)) /\
  (forall y, y <> x -> snd m y = h y).
Proof.
  intros [R (C & _) T _] (Hr & _) Hpos m.
  assert (Hat : forall i, i <= length (the_segments a) -> position (dbg E) (h x) i = Val (it_at (pos i))) by (intros i Hi; apply (Hpos i Hi)).
  assert (Hv : forall i, i <= length (the_segments a) -> it_v (pos i) = Some x) by (intros i Hi; apply (Hpos i Hi)).
  assert (Ee : run_edit E e (h x) = scall E (call_map it_at (with_positions pos e)) (h x)).
  { destruct e; cbn [run_edit with_positions call_map scall edit_at edit_to] in *; unfold bind at 1, at_position; rewrite Hat by lia; try reflexivity.
    unfold bind. rewrite Hat by lia. reflexivity. }
  rewrite Ee. apply own_calls. destruct e; cbn [with_positions iters edit_at edit_to] in *; repeat constructor; apply Hv; lia.
Qed.

(** ** Default-constructed iterators *)

Lemma null_erase E x h : werase E x no_iter h = (UB, h).
Proof. reflexivity. Qed.
Lemma null_replace E x h s a : env_ok E -> editable (dbg E) (h x) a -> fits E (h x) (st_size (u_st (h x)) + (length (canonical_encoding k_pchar s) + 1)) = true ->
  fst (wreplace E x no_iter s h) = UB.
Proof.
  intros HE [R _ T Sz] F. unfold wreplace. cbn [no_iter it_at si_n]. unfold bind at 1, on, reserve_text, bind, get_st.
  rewrite uassert_ok by (intros K; apply Nat.eqb_eq; symmetry; apply Sz, K).
  rewrite <- encode_canonical, encode_length in F. cbn [set_of] in F.
  destruct (reserve_mem E _ (h x) 0 (encoded_size pchar_pct_set s + 1) HE R T) as [(_ & u1 & E1 & _)|(F' & _)].
  - rewrite E1. reflexivity.
  - rewrite Nat.sub_0_r in F'. congruence.
Qed.
Lemma null_equals E : wseg_eq E no_iter no_iter = Val true.
Proof. unfold wseg_eq, oassert. cbn. rewrite andb_false_r. reflexivity. Qed.
Lemma null_equals_param E : wpar_eq E no_piter no_piter = Val true.
Proof. unfold wpar_eq, oassert. cbn. rewrite andb_false_r. reflexivity. Qed.
