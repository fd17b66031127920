(** * ProofsPoolEdit: proofs for PropertiesPoolEdit *)

From Verif Require Import Base ModelChar ModelParts ModelParse ModelView ModelUrl ModelMisc ModelPool SpecChar SpecGrammar SpecLink SpecView SpecStore SpecUrl
  SpecHistory SpecSetters SpecIter SpecSegments SpecMixed SpecMisc SpecRes SpecPool SpecPoolEdit
  ProofsMem ProofsRun ProofsHistory ProofsIter ProofsChar ProofsSegments ProofsSetters ProofsMixed ProofsMisc ProofsRes ProofsPool.

(** ** Fewer allocations succeed *)

(** [m'] is [m] with an allocator that refuses more. *)
Definition stingy {A} (m' m : U A) : Prop := forall u, fst (m' u) = Exn bad_alloc \/ m u = m' u.
Definition refuse (E : env) (f : nat -> nat -> bool) : env := mk_env (dbg E) (size_max E) (max_size E) (fun k n => alloc_ok E k n && f k n).
Lemma refuse_ok E f : env_ok E -> env_ok (refuse E f).
Proof. intros HE k n H. cbn [alloc_ok refuse max_size] in *. apply andb_prop in H. exact (HE k n (proj1 H)). Qed.

Section Stingy.
Variables (E : env) (f : nat -> nat -> bool).
Notation E' := (refuse E f).
Lemma sg_refl {A} (m : U A) : stingy m m. Proof. intros u. right. reflexivity. Qed.
Lemma sg_bind {A B} (m1 m2 : U A) (f1 f2 : A -> U B) : stingy m1 m2 -> (forall a, stingy (f1 a) (f2 a)) -> stingy (bind m1 f1) (bind m2 f2).
Proof.
  intros H K u. unfold bind. destruct (H u) as [Hu| ->]; [left; destruct (m1 u) as [[a|e| | |] u1]; cbn [fst] in *; congruence|].
  destruct (m1 u) as [[a|e| | |] u1]; try (right; reflexivity). exact (K a u1).
Qed.
Lemma sg_reserve n : stingy (st_reserve E' n) (st_reserve E n).
Proof.
  intros u. unfold st_reserve. cbn [refuse max_size alloc_ok]. cbv zeta. destruct (n <=? st_cap (u_st u)); [right; reflexivity|].
  set (k := st_allocs (u_st u)). set (c := (if _ <? _ then _ else _) + 1). destruct (alloc_ok E k c); cbn [andb negb]; [|left; reflexivity].
  destruct (f k c); [right; reflexivity|left; reflexivity].
Qed.
Lemma sg_resize n : stingy (st_resize E' n) (st_resize E n).
Proof. unfold st_resize. apply sg_bind; [apply sg_reserve|]. intros [p|]; apply sg_refl. Qed.
Lemma sg_assert b : stingy (uassert E' b) (uassert E b). Proof. exact (sg_refl (uassert E b)). Qed.
Lemma sg_nul : stingy (assert_nul_at_end E') (assert_nul_at_end E). Proof. exact (sg_refl (assert_nul_at_end E)). Qed.
Lemma sg_pos i : stingy (at_position E' i) (at_position E i). Proof. exact (sg_refl (at_position E i)). Qed.
Ltac sg1 :=
  match goal with
  | |- stingy (bind _ _) (bind _ _) => apply sg_bind; [|intros ?]
  | |- stingy (uassert _ _) _ => apply sg_assert
  | |- stingy (assert_nul_at_end _) _ => exact sg_nul
  | |- stingy (at_position _ _) _ => apply sg_pos
  | |- stingy (st_reserve _ _) _ => apply sg_reserve
  | |- stingy (st_resize _ _) _ => apply sg_resize
  | |- stingy (if ?b then _ else _) _ => destruct b
  | |- stingy ?m ?m' => constr_eq m m'; apply sg_refl
  end.
Ltac sg := cbv zeta; change (dbg E') with (dbg E); repeat sg1.
Lemma sg_erase2 p q : stingy (seg_erase2 E' p q) (seg_erase2 E p q). Proof. unfold seg_erase2. sg. Qed.
Lemma sg_erase p : stingy (seg_erase E' p) (seg_erase E p). Proof. unfold seg_erase. sg. apply sg_erase2. Qed.
Lemma sg_raw p t n : stingy (seg_insert_raw E' p t n) (seg_insert_raw E p t n). Proof. unfold seg_insert_raw. sg. Qed.
Lemma sg_seg_reserve n m : stingy (seg_reserve E' n m) (seg_reserve E n m). Proof. unfold seg_reserve. sg. Qed.
Lemma sg_run_edit e : stingy (run_edit E' e) (run_edit E e).
Proof.
  destruct e; cbn [run_edit]; unfold seg_insert_encoded, seg_insert, seg_replace_encoded, seg_replace, seg_insert_encoded_impl, seg_insert_impl;
    sg; first [apply sg_raw|apply sg_erase|apply sg_erase2|apply sg_seg_reserve].
Qed.
End Stingy.

(** ** One edit *)

Lemma fits_refuse E f u n : (alloc_ok E (st_allocs (u_st u)) (new_cap E (st_cap (u_st u)) n + 1) = true -> st_cap (u_st u) < n ->
    f (st_allocs (u_st u)) (new_cap E (st_cap (u_st u)) n + 1) = true) -> fits (refuse E f) u n = fits E u n.
Proof.
  intros H. unfold fits. change (new_cap (refuse E f)) with (new_cap E). cbn [refuse alloc_ok]. destruct (n <=? st_cap (u_st u)) eqn:L; [reflexivity|].
  apply Nat.leb_gt in L. cbn [orb]. destruct (alloc_ok E _ _); [|reflexivity]. cbn [andb]. exact (H eq_refl L).
Qed.
(** Only the allocation that the edit needs succeeds. *)
Definition only (E : env) (u : url) (n : nat) : env :=
  refuse E (fun k m => (st_cap (u_st u) <? n) && (k =? st_allocs (u_st u)) && (m =? new_cap E (st_cap (u_st u)) n + 1)).
Lemma fits_only E u n : fits (only E u n) u n = fits E u n.
Proof. apply fits_refuse. intros _ L. apply Nat.ltb_lt in L. rewrite L, !Nat.eqb_refl. reflexivity. Qed.
Definition once (k : nat) (u : url) : Prop := st_allocs (u_st u) <= S k.
Lemma about_once k : about (once k). Proof. intros u u' H _ _. unfold once. rewrite H. auto. Qed.
Lemma once_reserve E u n m : env_ok E -> keeps (once (st_allocs (u_st u))) (st_reserve (only E u n) m).
Proof.
  intros HE w H. destruct (reserve_numbers (only E u n) m w (refuse_ok _ _ HE)) as [(A & _)|(A & _ & _ & _ & O)]; unfold once in *; rewrite A; [exact H|].
  cbn [only refuse alloc_ok] in O. rewrite !andb_true_iff, !Nat.eqb_eq in O. lia.
Qed.
Lemma asserts_dec d e a : asserts d e a \/ ~ asserts d e a.
Proof.
  unfold asserts, at_end_without_query, idle. destruct d; [|right; intros (K & _); discriminate].
  destruct (Nat.eq_dec (edit_to e) (length (the_segments a))); [|right; tauto].
  destruct (uri_query a); [right; intros (_ & _ & _ & K); discriminate|]. destruct e; try (left; tauto).
  destruct (Nat.eq_dec i j); [right; tauto|left; tauto].
Qed.
Lemma edit_same E e u a : env_ok E -> editable (dbg E) u a -> in_range e a -> fits E u (edit_need e u a) = true -> text_valid e ->
  run_edit E e u = run_edit (only E u (edit_need e u a)) e u.
Proof.
  intros HE Hed Hi Hf V. set (n := edit_need e u a) in *.
  destruct (sg_run_edit E (fun k m => (st_cap (u_st u) <? n) && (k =? st_allocs (u_st u)) && (m =? new_cap E (st_cap (u_st u)) n + 1)) e u) as [K|K]; [|exact K].
  exfalso. fold (only E u n) in K. destruct (edit_ok (only E u n) u a e (refuse_ok _ _ HE) Hed Hi) as (A1 & A2 & _). fold n in A1, A2.
  assert (Hd : asserts (dbg (only E u n)) e a \/ ~ asserts (dbg (only E u n)) e a) by apply asserts_dec.
  destruct Hd as [Hd|Hd].
  - destruct (A2 V Hd) as [(_ & u' & Er & _)|(F & _)]; [rewrite Er in K; discriminate K|]. rewrite fits_only in F. congruence.
  - destruct (A1 V Hd) as [(_ & u' & p & Er & _)|(F & _)]; [rewrite Er in K; discriminate K|]. rewrite fits_only in F. congruence.
Qed.

Definition grown (E : env) (n : nat) (u u' : url) : Prop :=
  (st_allocs (u_st u') = st_allocs (u_st u) /\ st_cap (u_st u') = st_cap (u_st u)) \/
  (st_allocs (u_st u') = S (st_allocs (u_st u)) /\ st_cap (u_st u) < n /\ st_cap (u_st u') = Nat.max (2 * st_cap (u_st u)) n /\
   alloc_ok E (st_allocs (u_st u)) (st_cap (u_st u') + 1) = true).
Lemma grown_refl E n u : grown E n u u. Proof. left. split; reflexivity. Qed.

Lemma edit_invalid E e u a : usable u a -> in_range e a -> ~ text_valid e -> run_edit E e u = (Exn invalid_part, u).
Proof.
  intros Hu ((H1 & H2) & Hr) V. destruct e as [i s|i s|i|i j|i s|i s]; cbn [edit_at edit_to text_valid run_edit] in *; try tauto;
    (destruct (position_usable (dbg E) u a i Hu ltac:(lia)) as (p & Hp)); unfold bind at 1, at_position; rewrite Hp;
    [apply insert_encoded_invalid, V|apply replace_encoded_invalid, V].
Qed.
Lemma edit_grown E e u a : env_ok E -> usable u a -> in_range e a -> grown E (edit_need e u a) u (snd (run_edit E e u)).
Proof.
  intros HE Hu Hi. destruct (run_edit E e u) as [r u'] eqn:Er. cbn [snd].
  destruct (text_valid_dec e) as [V|V].
  2:{ rewrite (edit_invalid E e u a Hu Hi V) in Er. injection Er as _ <-. apply grown_refl. }
  destruct (Bool.bool_dec (dbg E) true) as [Hd|Hd]; [destruct (in_sync_dec u) as [S|S]|].
  2:{ rewrite (edit_disagree E u a e Hd Hu Hi S V) in Er. injection Er as <- <-. apply grown_refl. }
  all: assert (Hed : editable (dbg E) u a) by (apply usable_editable; [exact Hu|intros; try exact S; contradiction]).
  all: destruct (fits E u (edit_need e u a)) eqn:F.
  2,4: destruct (edit_ok E u a e HE Hed Hi) as (A1 & A2 & _); destruct (asserts_dec (dbg E) e a) as [D|D];
    [destruct (A2 V D) as [(F' & _)|(_ & E1)]|destruct (A1 V D) as [(F' & _)|(_ & E1)]];
    try congruence; rewrite Er in E1; injection E1 as -> ->; apply grown_refl.
  all: rewrite (edit_same E e u a HE Hed Hi F V) in Er; set (n := edit_need e u a) in *; set (E' := only E u n) in *;
    assert (HE' : env_ok E') by apply refuse_ok, HE;
    pose proof (k_run_edit E' _ (about_granted E' (st_allocs (u_st u)) (st_cap (u_st u))) (fun m => granted_reserve E' _ _ m HE') e u (or_introl (conj eq_refl eq_refl))) as G;
    pose proof (k_run_edit E' _ (about_once (st_allocs (u_st u))) (fun m => once_reserve E u n m HE) e u (Nat.le_succ_diag_r _)) as O;
    rewrite Er in G, O; cbn [snd] in G, O; unfold once in O;
    (destruct G as [G|[(G1 & G2 & G3)|G]]; [left; exact G|right|lia]);
    cbn [E' only refuse alloc_ok] in G2; rewrite !andb_true_iff, !Nat.eqb_eq, Nat.ltb_lt in G2; destruct G2 as (G2 & (G4 & _) & G5);
    (split; [exact G1|]; split; [exact G4|]; split; [|exact G2]);
    pose proof (HE _ _ G2) as M; assert (C : st_cap (u_st u') = new_cap E (st_cap (u_st u)) n) by lia; rewrite C in M |- *;
    unfold new_cap in *; cbv zeta in *; destruct (st_cap (u_st u) <? _); [|lia];
    destruct (2 * st_cap (u_st u) <? n) eqn:E2; [apply Nat.ltb_lt in E2|apply Nat.ltb_ge in E2]; lia.
Qed.

(** ** The storage's own size after an edit *)

Lemma insert_sync E u a i p t x u' : env_ok E -> editable (dbg E) u a -> rooted (uri_path a) = true \/ 0 < i -> i <= length (the_segments a) ->
  si_off p = si_off (seg_pos (view_of u) a i) -> no_char "/" t -> seg_insert_raw E p t (length t) u = (Val x, u') -> in_sync u'.
Proof.
  intros HE Hed Hr Hi Hp Ht Er. destruct (insert_raw_spec E u a i p t HE Hed Hr Hi Hp Ht) as [(_ & u1 & _ & K & E1)|(_ & E1)]; rewrite E1 in Er; [|discriminate].
  injection Er as _ <-. exact (ed_size _ _ _ _ K).
Qed.
Lemma erase_sync E u a i j p q x u' : editable (dbg E) u a -> rooted (uri_path a) = true \/ 0 < i -> i < j -> j <= length (the_segments a) ->
  si_off p = si_off (seg_pos (view_of u) a i) -> si_off q = si_off (seg_pos (view_of u) a j) -> seg_erase2 E p q u = (Val x, u') -> in_sync u'.
Proof.
  intros Hed Hr Hij Hj Hp Hq Er. destruct (erase_raw_spec E u a i j p q Hed Hr Hij Hj Hp Hq) as (u1 & _ & K & E1). rewrite E1 in Er.
  injection Er as _ <-. exact (ed_size _ _ _ _ K).
Qed.
Lemma replace_sync E u a i p t Ins x u' : env_ok E -> editable (dbg E) u a -> rooted (uri_path a) = true \/ 0 < i -> i < length (the_segments a) ->
  position (dbg E) u i = Val p -> no_char "/" t -> (forall q w, Ins q w = seg_insert_raw E q t (length t) w) ->
  replace_body E p (length t + 1) Ins u = (Val x, u') -> in_sync u'.
Proof.
  intros HE Hed Hr Hi Hp Ht HIns Er. pose proof Hed as [R (C & C2) T Hsz].
  assert (Ep : p = seg_pos (view_of u) a i). { rewrite (position_pos _ _ a i R C) in Hp by lia. injection Hp as <-. reflexivity. }
  unfold replace_body, bind in Er.
  destruct (reserve_mem E _ u (si_n p) (length t + 1) HE R T) as [(_ & u1 & E1 & R1 & T1 & P1 & S1 & _)|(_ & E1)]; rewrite E1 in Er; [|discriminate].
  unfold get_st in Er.
  assert (Ep1 : p = seg_pos (view_of u1) a i) by (rewrite Ep; unfold seg_pos, view_of; cbn [v_pt]; rewrite P1; reflexivity).
  assert (Hed1 : editable (dbg E) u1 a).
  { split; auto; [|intros D; rewrite S1; unfold usize; rewrite P1; exact (Hsz D)]. unfold right_counts, segments_size, params_size in *. cbn [view_of v_pt] in *. rewrite P1. auto. }
  pose proof Hed1 as [_ (C' & _) _ _].
  rewrite (erase_is E u1 a i p R1 C' Hi Ep1) in Er. set (ss1 := erase_range i (S i) (the_segments a)) in *.
  destruct (erase_raw_spec E u1 a i (S i) p (seg_pos (view_of u1) a (S i)) Hed1 Hr) as (u2 & D2 & K2 & E2); auto; [rewrite Ep1; reflexivity|].
  fold ss1 in D2, E2. rewrite E2 in Er. pose proof D2 as [R2 _ T2 _].
  assert (Hs1 : the_segments (with_segments ss1 a) = ss1) by (apply with_segments_segments; apply proper_erase; assumption).
  assert (Ls1 : length ss1 = length (the_segments a) - 1).
  { unfold ss1, erase_range. rewrite app_length, firstn_length, skipn_length. lia. }
  destruct (parse_position (dbg E) u2 (with_segments ss1 a) i R2 T2) as (Q1 & Q2); [rewrite Hs1, Ls1; lia|].
  destruct (seg_parse_base _ _ _) as [p1| | | |] eqn:Eq in Er; try discriminate. rewrite HIns in Er.
  assert (Hp1 : si_off p1 = si_off (seg_pos (view_of u2) (with_segments ss1 a) i)).
  { rewrite Eq in Q1, Q2. assert (D : dbg E = true /\ at_end_without_query (with_segments ss1 a) i \/ ~ (dbg E = true /\ at_end_without_query (with_segments ss1 a) i)).
    { unfold at_end_without_query. destruct (dbg E); [|right; intros (K & _); discriminate]. destruct (Nat.eq_dec i (length (the_segments (with_segments ss1 a)))); [|right; tauto].
      destruct (uri_query (with_segments ss1 a)); [right; intros (_ & _ & K); discriminate|left; auto]. }
    destruct D as [D|D]; [specialize (Q2 D); discriminate|]. specialize (Q1 D). injection Q1 as ->. reflexivity. }
  assert (Hr1 : rooted (uri_path (with_segments ss1 a)) = true \/ 0 < i).
  { destruct Hr as [Hr|Hr]; [left|auto]. unfold with_segments. cbn [with_path uri_path]. rewrite rooted_to_path; [exact Hr|apply proper_erase; auto]. }
  destruct (seg_insert_raw E p1 t (length t) u2) as [[y| | | |] u3] eqn:E3; try discriminate.
  unfold uassert, lift in Er. destruct (oassert _ _) in Er; try discriminate. injection Er as _ <-.
  refine (insert_sync E u2 (with_segments ss1 a) i p1 t y u3 HE D2 Hr1 _ Hp1 Ht E3). rewrite Hs1, Ls1. lia.
Qed.
Lemma edit_sync E e u a x u' : env_ok E -> editable (dbg E) u a -> in_range e a -> text_valid e -> run_edit E e u = (Val x, u') ->
  (idle e /\ u' = u) \/ in_sync u'.
Proof.
  intros HE Hed ((H1 & H2) & Hr) V Er. pose proof Hed as [R (C & C2) T Hsz].
  assert (At : forall i, i <= length (the_segments a) -> position (dbg E) u i = Val (seg_pos (view_of u) a i)).
  { intros i Hi. apply position_pos; [exact R|exact C|exact Hi]. }
  assert (G : forall s, no_char "/" (canonical_encoding k_pchar s)) by (intros s; apply pchar_no_slash, canonical_upper_text).
  destruct e as [i s|i s|i|i j|i s|i s]; cbn [edit_at edit_to text_valid run_edit idle] in *; unfold bind at 1, at_position at 1 in Er; rewrite At in Er by lia.
  - right. apply (insert_sync E u a i (seg_pos (view_of u) a i) s x u'); auto; [apply pchar_no_slash, V|]. revert Er.
    unfold seg_insert_encoded, bind, lift. destruct (validate_spec k_pchar s) as [(_ & Ev)|(K & _)]; [|contradiction]. cbn [set_of] in Ev. rewrite Ev.
    unfold seg_insert_encoded_impl, bind. rewrite uassert_ok; [auto|]. intros _. apply (check_spec k_pchar), V.
  - right. apply (insert_sync E u a i (seg_pos (view_of u) a i) (canonical_encoding k_pchar s) x u'); auto. revert Er.
    unfold seg_insert, seg_insert_impl, bind. rewrite uassert_ok by (intros _; apply Nat.eqb_refl).
    change pchar_pct_set with (set_of k_pchar). rewrite <- encode_length, encode_canonical. auto.
  - right. rewrite (erase_is E u a i _ R C) in Er by (auto; lia).
    apply (erase_sync E u a i (S i) (seg_pos (view_of u) a i) (seg_pos (view_of u) a (S i)) x u'); auto.
  - unfold bind at 1, at_position at 1 in Er. rewrite At in Er by lia. destruct (Nat.eq_dec i j) as [<-|Hne].
    + left. split; [reflexivity|]. pose proof (rep_holds _ _ R) as H. rewrite erase_same in Er; [injection Er as _ <-; reflexivity|exact Hsz| |].
      * pose proof (pos_ge (view_of u) a i H2) as K. cbn [view_of v_pt] in K. lia.
      * pose proof (pos_le_end _ _ H i H2) as K. cbn [view_of v_pt] in K. lia.
    + right. apply (erase_sync E u a i j (seg_pos (view_of u) a i) (seg_pos (view_of u) a j) x u'); auto. lia.
  - right. apply (replace_sync E u a i (seg_pos (view_of u) a i) s (fun q => seg_insert_encoded_impl E q s) x u'); auto.
    + apply At. lia.
    + apply pchar_no_slash, V.
    + intros q w. unfold seg_insert_encoded_impl, bind. rewrite uassert_ok; [reflexivity|]. intros _. apply (check_spec k_pchar), V.
    + rewrite <- Er. unfold seg_replace_encoded, bind, lift, get_st. destruct (validate_spec k_pchar s) as [(_ & Ev)|(K & _)]; [|contradiction]. cbn [set_of] in Ev. rewrite Ev.
      rewrite uassert_ok by (intros D; apply Nat.eqb_eq; symmetry; apply Hsz, D). reflexivity.
  - right. apply (replace_sync E u a i (seg_pos (view_of u) a i) (canonical_encoding k_pchar s) (fun q => seg_insert_impl E q s (encoded_size pchar_pct_set s)) x u'); auto.
    + apply At. lia.
    + intros q w. unfold seg_insert_impl, bind. rewrite uassert_ok by (intros _; apply Nat.eqb_refl).
      change pchar_pct_set with (set_of k_pchar). rewrite <- encode_length, encode_canonical. reflexivity.
    + rewrite <- Er. unfold seg_replace, bind, get_st. rewrite uassert_ok by (intros D; apply Nat.eqb_eq; symmetry; apply Hsz, D).
      unfold replace_body, bind. rewrite <- encode_canonical, encode_length. reflexivity.
Qed.

(** ** One action *)

Lemma call_grown E o a a' u u' : env_ok E -> arg_ok o -> rep (part_texts a) u -> ~ breaks (dbg E) o a -> run E o u = (Val tt, u') ->
  effect E o a a' u u' -> grown E (need o a a') u u'.
Proof.
  intros HE Ha R Hb Er Ef. destruct (call_granted E o a u _ u' HE Ha R Hb Er) as (_ & _ & [G|(G1 & G2 & G3)]); [left; exact G|right].
  pose proof (ef_allocs _ _ _ _ _ _ Ef) as A. pose proof (ef_cap _ _ _ _ _ _ Ef) as C. unfold k_after in A. unfold cap_after in C.
  destruct (need o a a' <=? st_cap (u_st u)) eqn:L; [lia|]. apply Nat.leb_gt in L. split; [exact G1|]. split; [exact L|]. split; [|exact G2].
  pose proof (HE _ _ G2) as M. rewrite C in M |- *. unfold new_cap in *. cbv zeta in *. destruct (st_cap (u_st u) <? _); [|lia].
  destruct (2 * st_cap (u_st u) <? need o a a') eqn:E2; [apply Nat.ltb_lt in E2|apply Nat.ltb_ge in E2]; lia.
Qed.
Lemma segment_le s root ss : In s ss -> length s <= length (to_path root ss).
Proof.
  assert (G : forall l, In s l -> length s + 1 <= length (absolute_path l)).
  { induction l as [|x l IH]; intros []; unfold absolute_path in *; cbn [map concat]; rewrite app_length; cbn [length]; [subst; lia|specialize (IH H); lia]. }
  intros H. destruct root; cbn [to_path]; [specialize (G _ H); lia|]. destruct ss as [|x l]; [destruct H|]. rewrite app_length.
  destruct H as [->|H]; [lia|]. specialize (G _ H). lia.
Qed.
Lemma path_le a : length (uri_path a) <= length (recompose a).
Proof. rewrite <- ProofsView.concat_parts, (parts_path a), concat_app. cbn [concat]. rewrite !app_length. lia. Qed.
Lemma with_segments_le s ss a : In s ss -> length s <= length (recompose (with_segments ss a)).
Proof.
  intros H. pose proof (path_le (with_segments ss a)) as P. pose proof (segment_le s (rooted (uri_path a)) ss H) as Q.
  unfold with_segments at 1 in P. cbn [with_path uri_path] in P. lia.
Qed.
Lemma edit_need_le e u a n : in_range e a -> usize u <= n -> st_size (u_st u) <= n + 2 ->
  length (recompose (with_segments (list_edit e (the_segments a)) a)) <= n -> edit_need e u a <= 2 * n + 2.
Proof.
  intros ((H1 & H2) & _) Hu Hs Hn.
  assert (G : forall s, In s (list_edit e (the_segments a)) -> length s <= n) by (intros s H; pose proof (with_segments_le s _ a H); lia).
  destruct e as [i s|i s|i|i j|i s|i s]; cbn [edit_need list_edit] in *; try lia;
    match goal with |- context [length ?t] => assert (K : length t <= n); [apply G; unfold insert_nth, replace_nth; apply in_or_app; right; left; reflexivity|lia] end.
Qed.

(** What is known about a url that was never longer than [n]. *)
Record short (n : nat) (u : url) : Prop := {
  sh_usize : usize u <= n;
  sh_size : st_size (u_st u) <= n + 2;
  sh_cap : st_cap (u_st u) <= 4 * n + 2;
  sh_any : any_calls u
}.
Lemma short_url0 n : short n url0.
Proof. split; [cbn; lia|cbn; lia|cbn; lia|constructor]. Qed.
Lemma grown_short n m E u u' : m <= 2 * n + 2 -> st_cap (u_st u) <= 4 * n + 2 -> grown E m u u' -> st_cap (u_st u') <= 4 * n + 2.
Proof. intros Hm Hc [(_ & G)|(_ & G1 & G2 & _)]; lia. Qed.

(** Even an aborted edit leaves a url. *)
Lemma edit_rep E e u a r u' : env_ok E -> usable u a -> in_range e a -> run_edit E e u = (r, u') -> some_rep u'.
Proof.
  intros HE Hu Hi Er. destruct (edit_usable E e u a r u' HE Hu Hi Er) as [(p & _ & _ & U' & _)|[(x & _ & ->)|(-> & Hd)]].
  - eexists. exact (ed_rep _ _ _ U').
  - exists a. exact (ed_rep _ _ _ Hu).
  - destruct (text_valid_dec e) as [V|V].
    + destruct (in_sync_dec u) as [S|S].
      * destruct (edit_ok E u a e HE (usable_editable _ _ _ Hu (fun _ => S)) Hi) as (A1 & A2 & _). destruct (asserts_dec (dbg E) e a) as [D|D].
        -- destruct (A2 V D) as [(_ & u1 & E1 & K)|(_ & E1)]; rewrite Er in E1; [|discriminate]. injection E1 as ->. eexists. exact (ed_rep _ _ _ K).
        -- destruct (A1 V D) as [(_ & u1 & p & E1 & _)|(_ & E1)]; rewrite Er in E1; discriminate.
      * rewrite (edit_disagree E u a e Hd Hu Hi S V) in Er. injection Er as <-. exists a. exact (ed_rep _ _ _ Hu).
    + rewrite (edit_invalid E e u a Hu Hi V) in Er. discriminate.
Qed.

(** Everything about one action. *)
Lemma perform_ok E c u r u' : env_ok E -> some_rep u -> numbered u -> allowed (dbg E) c u -> perform E c u = (r, u') ->
  (some_rep u' /\ numbered u') /\
  (r = Val tt \/ (exists e, r = Exn e /\ u' = u) \/ (r = Abort /\ dbg E = true /\ exists e, c = Edit e)) /\
  ((st_allocs (u_st u') = st_allocs (u_st u) /\ st_cap (u_st u') = st_cap (u_st u)) \/
   (st_allocs (u_st u') = S (st_allocs (u_st u)) /\ alloc_ok E (st_allocs (u_st u)) (st_cap (u_st u') + 1) = true /\ 2 * st_cap (u_st u) <= st_cap (u_st u'))) /\
  (forall n, short n u -> usize u' <= n -> r <> Abort -> short n u').
Proof.
  intros HE (a0 & R0) HN HA Hp. destruct c as [o|e]; cbn [allowed perform] in *.
  - destruct HA as (Ha & Hb). specialize (Hb a0 R0).
    pose proof (call_numbered E o u HN) as N'. rewrite Hp in N'. cbn [snd] in N'.
    destruct (call_granted E o a0 u r u' HE Ha R0 Hb Hp) as (R' & Hr & G). split; [auto|]. split; [tauto|]. split; [exact G|].
    intros n [S1 S2 S3 S4] Hn _. assert (S5 : any_calls u') by (replace u' with (snd (run E o u)) by (rewrite Hp; reflexivity); constructor; assumption).
    destruct Hr as [->|(e & -> & ->)]; [|split; assumption].
    destruct (call_does E o a0 u HE Ha R0 Hb) as [(a' & u1 & E1 & _ & Ef)|(e & E1)]; rewrite Hp in E1; [|discriminate]. injection E1 as <-.
    split; [exact Hn| | |exact S5].
    + pose proof (call_sizes E o a0 u u' HE Ha R0 Hb Hp) as Z. unfold sizes_after, in_sync in Z. destruct (replaces o); [lia|].
      destruct (grows_and_shrinks o a0); [lia|]. destruct (Nat.le_gt_cases (usize u') (usize u)) as [L|L]; [rewrite (proj2 Z L); exact S2|rewrite (proj1 Z L); lia].
    + pose proof (need_usize _ _ _ _ _ _ Ef). apply (grown_short n (need o a0 a') E u u'); [lia|exact S3|]. apply call_grown; assumption.
  - destruct HA as (a & Hu & Hi). destruct (run_edit E e u) as [r1 u1] eqn:Er. cbn [fst snd] in Hp. injection Hp as <- <-.
    pose proof (k_run_edit E numbered about_numbered (numbered_reserve E) e u HN) as N'. rewrite Er in N'. cbn [snd] in N'.
    pose proof (edit_grown E e u a HE Hu Hi) as G. rewrite Er in G. cbn [snd] in G.
    assert (S5 : any_calls u -> any_calls u1) by (intros S4; replace u1 with (snd (run_edit E e u)) by (rewrite Er; reflexivity); constructor; assumption).
    split; [split; [|exact N']|split; [|split]].
    + destruct (edit_rep E e u a r1 u1 HE Hu Hi Er) as (a' & R'). exists a'. exact R'.
    + destruct (edit_usable E e u a r1 u1 HE Hu Hi Er) as [(p & -> & _)|[(x & -> & ->)|(-> & Hd)]]; cbn [omap]; eauto 8.
    + destruct G as [G|(G1 & G2 & G3 & G4)]; [left; exact G|right]. split; [exact G1|]. split; [exact G4|lia].
    + intros n [S1 S2 S3 S4] Hn Hab. destruct (edit_usable E e u a r1 u1 HE Hu Hi Er) as [(p & -> & V & U' & Hd)|[(x & -> & ->)|(-> & _)]];
        [|split; assumption|contradiction Hab; reflexivity].
      assert (Hed : editable (dbg E) u a) by (apply usable_editable; [exact Hu|intros D; apply (Hd D)]).
      split; [exact Hn| | |exact (S5 S4)].
      * destruct (edit_sync E e u a p u1 HE Hed Hi V Er) as [(_ & ->)|K]; [exact S2|unfold in_sync in K; lia].
      * refine (grown_short n _ E u u1 _ S3 G). apply edit_need_le; auto.
        rewrite <- ProofsView.concat_parts, <- (rep_usize _ _ (ed_rep _ _ _ U')). exact Hn.
Qed.

Theorem edit_once E e u a r u' : env_ok E -> usable u a -> in_range e a -> run_edit E e u = (r, u') ->
  (st_allocs (u_st u') = st_allocs (u_st u) /\ st_cap (u_st u') = st_cap (u_st u)) \/
  (st_allocs (u_st u') = S (st_allocs (u_st u)) /\ alloc_ok E (st_allocs (u_st u)) (st_cap (u_st u') + 1) = true /\
   st_cap (u_st u) < edit_need e u a /\ st_cap (u_st u') = Nat.max (2 * st_cap (u_st u)) (edit_need e u a)).
Proof. intros HE Hu Hi Er. pose proof (edit_grown E e u a HE Hu Hi) as G. rewrite Er in G. destruct G as [G|(G1 & G2 & G3 & G4)]; auto. Qed.

(** ** Programs *)

Section Pool.
Variables (W base cap : N) (largest : nat) (d : bool).
Hypothesis HM : in_memory W base cap.

Lemma inv_action w i x c r w' : inv W base cap w -> nth_error (w_urls w) i = Some x -> allowed d c (pl_url x) ->
  call_on W largest (fun E => perform E c) d i w = (r, w') ->
  inv W base cap w' /\ (r = Val tt \/ (exists e, r = Exn e /\ w' = w) \/ (r = Abort /\ d = true /\ exists e, c = Edit e)) /\
  (exists u p, perform (pool_env W largest d (w_pool w)) c (pl_url x) = (r, u) /\ nth_error (w_urls w') i = Some (mk_placed u p) /\
     (p = pl_at x \/ ~ In (buffer_of (mk_placed u p)) (w_given w) /\ In (buffer_of (mk_placed u p)) (w_given w'))) /\
  (forall j, j <> i -> nth_error (w_urls w') j = nth_error (w_urls w) j) /\
  length (w_urls w') = length (w_urls w) /\
  (N.to_nat (p_top (w_pool w') - base) + costs (w_urls w) <= N.to_nat (p_top (w_pool w) - base) + costs (w_urls w')).
Proof.
  intros I Hx HA Hc. destruct (in_urls _ _ _ _ I _ _ Hx) as (R & N & B). set (E := pool_env W largest d (w_pool w)).
  destruct (perform E c (pl_url x)) as [r1 u] eqn:Ep.
  destruct (perform_ok E c (pl_url x) r1 u (pool_env_ok W largest d _) R N HA Ep) as ((R' & N') & Hr & G & _).
  destruct (inv_step W base cap largest HM (fun E => perform E c) d w i x r1 u I Hx Ep) with (r := r) (w' := w') as (I' & -> & Hsame & (p & Hp & Hb) & Ho & HL & Ht & Hle); [|exact Hc|].
  { split; [exact R'|exact N'|]. destruct G as [G|(G1 & G2 & _)]; [left; exact G|right; split; assumption]. }
  split; [exact I'|]. split; [|split; [|split; [exact Ho|split; [exact HL|]]]].
  - destruct Hr as [Hr|[(e & Hr & Hu)|Hr]]; [left; exact Hr|right; left; exists e; auto|right; right; exact Hr].
  - exists u, p. auto.
  - assert (Hput : w_urls w' = put_at i (mk_placed u p) (w_urls w)).
    { pose proof (nth_len _ _ _ Hx) as Hi. apply nth_ext with (d := x) (d' := x); [rewrite length_put; exact HL|]. intros j Hj.
      assert (K : nth_error (w_urls w') j = nth_error (put_at i (mk_placed u p) (w_urls w)) j).
      { rewrite nth_put by exact Hi. destruct (j =? i) eqn:Ej; [apply Nat.eqb_eq in Ej; subst j; exact Hp|apply Nat.eqb_neq in Ej; exact (Ho j Ej)]. }
      pose proof (nth_error_nth' _ x Hj) as K1. rewrite K in K1. symmetry. exact (nth_error_nth _ _ x K1). }
    pose proof (costs_put x (mk_placed u p) _ _ Hx) as C. rewrite <- Hput in C. unfold cost in C. cbn [pl_url] in C.
    destruct (in_pool _ _ _ _ I) as ((_ & _ & P1) & P2 & _). rewrite P2 in P1.
    destruct G as [(G1 & G2)|(G1 & _ & G2)]; rewrite G1 in Ht.
    + rewrite Nat.sub_diag in Ht. cbn [Nat.mul] in Ht. lia.
    + replace (S (st_allocs (u_st (pl_url x))) - st_allocs (u_st (pl_url x))) with 1 in Ht by lia. rewrite Nat.mul_1_l in Ht. lia.
Qed.
Lemma edit_program_inv ok k w : edit_program W largest d ok (new_world base cap k) w -> inv W base cap w.
Proof.
  induction 1 as [|w i x c r w' H IH Hx HA Hc Hr Hok]; [apply inv_start, HM|]. exact (proj1 (inv_action w i x c r w' IH Hx HA Hc)).
Qed.

Theorem edit_pool_urls ok k w : edit_program W largest d ok (new_world base cap k) w ->
  Forall (within base cap) (w_given w) /\ ForallOrdPairs disjoint (w_given w) /\
  (forall i x, nth_error (w_urls w) i = Some x -> has_buffer x -> In (buffer_of x) (w_given w)) /\
  (forall i j x y, i <> j -> nth_error (w_urls w) i = Some x -> nth_error (w_urls w) j = Some y -> has_buffer x -> has_buffer y ->
     disjoint (buffer_of x) (buffer_of y)).
Proof.
  intros H. pose proof (edit_program_inv ok k w H) as I. destruct (in_pool _ _ _ _ I) as (P & Pb & Pc). split; [|split; [|split]].
  - eapply Forall_impl; [|exact (in_given _ _ _ _ I)]. intros b Hb. cbn in Hb. destruct P as (P1 & P2 & P3). unfold within. lia.
  - exact (in_apart _ _ _ _ I).
  - intros i x Hx. apply (in_urls _ _ _ _ I _ _ Hx).
  - exact (in_private _ _ _ _ I).
Qed.
Theorem edit_pool_calls ok k w i x c r w' : edit_program W largest d ok (new_world base cap k) w ->
  nth_error (w_urls w) i = Some x -> allowed d c (pl_url x) -> call_on W largest (fun E => perform E c) d i w = (r, w') ->
  (r = Val tt \/ (exists e, r = Exn e /\ w' = w) \/ (r = Abort /\ d = true /\ exists e, c = Edit e)) /\
  (exists x', nth_error (w_urls w') i = Some x' /\ perform (pool_env W largest d (w_pool w)) c (pl_url x) = (r, pl_url x') /\
     (pl_at x' = pl_at x \/ In (buffer_of x') (w_given w') /\ ~ In (buffer_of x') (w_given w))) /\
  (forall j, j <> i -> nth_error (w_urls w') j = nth_error (w_urls w) j).
Proof.
  intros H Hx HA Hc. destruct (inv_action w i x c r w' (edit_program_inv ok k w H) Hx HA Hc) as (_ & Hr & (u & p & Hp & Hn & Hb) & Ho & _).
  split; [exact Hr|]. split; [|exact Ho]. exists (mk_placed u p). split; [exact Hn|]. split; [exact Hp|]. cbn [pl_at]. tauto.
Qed.

(** Programs without edits are programs with edits. *)
Lemma program_edit ok k w : program W largest d ok (new_world base cap k) w -> edit_program W largest d ok (new_world base cap k) w.
Proof.
  induction 1 as [|w i x o r w' H IH Hx Ha Hb Hc Hok]; [constructor|].
  apply (edit_program_next W largest d ok _ w i x (Modify o) r w' IH Hx (conj Ha Hb) Hc); [|exact Hok].
  destruct (inv_call W base cap largest HM d w i x o r w' (program_inv W base cap largest HM d ok k w H) Hx Ha Hb Hc) as (_ & [->|(e & -> & _)]); discriminate.
Qed.

Variable ns : list nat.
Record inv3 (w : world) : Prop := {
  i3_inv : inv W base cap w;
  i3_length : length (w_urls w) = length ns;
  i3_short : forall i x, nth_error (w_urls w) i = Some x -> short (nth i ns 0) (pl_url x);
  i3_used : N.to_nat (p_top (w_pool w) - base) <= costs (w_urls w)
}.
Lemma edit_program_inv3 w : edit_program W largest d (at_most ns) (new_world base cap (length ns)) w -> inv3 w.
Proof.
  induction 1 as [|w i x c r w' H IH Hx HA Hc Hr Hok].
  - constructor; [apply inv_start, HM|apply repeat_length| |].
    + intros i x Hx. apply nth_repeat in Hx. subst x. apply short_url0.
    + cbn [new_world w_pool new_pool p_top w_urls]. lia.
  - destruct IH as [I HL Hs Hu]. destruct (inv_action w i x c r w' I Hx HA Hc) as (I' & _ & (u & p & Hp & Hn & _) & Ho & HL' & Hcost).
    constructor; [exact I'|congruence| |lia]. intros j y Hy. destruct (Nat.eq_dec j i) as [->|Hj]; [|rewrite (Ho j Hj) in Hy; exact (Hs j y Hy)].
    rewrite Hn in Hy. injection Hy as <-. cbn [pl_url]. destruct (in_urls _ _ _ _ I _ _ Hx) as (R & N & _).
    destruct (perform_ok _ c (pl_url x) r u (pool_env_ok W largest d _) R N HA Hp) as (_ & _ & _ & Sh).
    exact (Sh _ (Hs i x Hx) (Hok _ Hn) Hr).
Qed.
Lemma costs_bound2 : forall l ns, length l = length ns -> (forall i x, nth_error l i = Some x -> cost x <= 9 * nth i ns 0 + 7) -> costs l <= enough_to_edit ns.
Proof.
  induction l as [|x l IH]; intros [|n ms] HL H; try discriminate; [cbn; lia|]. cbn [costs enough_to_edit fold_right].
  pose proof (H 0 x eq_refl) as H0. cbn [nth] in H0. assert (H1 : costs l <= enough_to_edit ms); [|unfold costs, enough_to_edit in H1; lia].
  apply IH; [injection HL; auto|]. intros i y Hy. exact (H (S i) y Hy).
Qed.
Lemma allocs_le u m : any_calls u -> st_cap (u_st u) <= 2 * m + 1 -> st_allocs (u_st u) <= m + 2.
Proof.
  intros H Hc. destruct (few_any u H) as [F|F]; [lia|]. assert (L : 2 ^ (st_allocs (u_st u) - 1) <= 2 * (m + 1)) by lia.
  apply Nat.log2_le_mono in L. rewrite Nat.log2_pow2, Nat.log2_double in L by lia. pose proof (log2_le m). lia.
Qed.
Lemma cost_short n u : short n u -> 2 * st_cap (u_st u) + st_allocs (u_st u) <= 9 * n + 7.
Proof.
  intros [S1 S2 S3 S4]. destruct (few_any u S4) as [F|F]; [lia|]. assert (L : 2 ^ (st_allocs (u_st u) - 1) <= 2 * (2 * (n + 1))) by lia.
  apply Nat.log2_le_mono in L. rewrite Nat.log2_pow2, !Nat.log2_double in L by lia. pose proof (log2_le n). lia.
Qed.
(** Room for everything such urls ask for. *)
Lemma pool_fits w i x m : inv3 w -> (N.of_nat (enough_to_edit ns) <= cap)%N -> nth_error (w_urls w) i = Some x -> m <= 2 * nth i ns 0 + 2 ->
  fits (pool_env W largest d (w_pool w)) (pl_url x) m = true.
Proof.
  intros [I HL Hs Hu] HN Hx Hm. destruct (in_pool _ _ _ _ I) as (Hp & Hpb & Hpc). pose proof (nth_len _ _ _ Hx) as Hi.
  set (E := pool_env W largest d (w_pool w)). set (u := pl_url x) in *. set (n := nth i ns 0) in *. pose proof (Hs i x Hx) as Sh. fold u n in Sh.
  assert (Hn9 : 9 * n + 7 <= enough_to_edit ns).
  { unfold n. clear - Hi HL. rewrite HL in Hi. clear HL. revert i Hi. induction ns as [|q l IH]; intros [|i] Hi; cbn [length nth enough_to_edit fold_right] in *; try lia.
    specialize (IH i ltac:(lia)). unfold enough_to_edit in IH. lia. }
  unfold fits. destruct (m <=? st_cap (u_st u)) eqn:El; [reflexivity|]. apply Nat.leb_gt in El. cbn [orb].
  destruct HM as (M1 & M2). pose proof Hp as (P1 & P2 & P3). rewrite Hpb, Hpc in *.
  assert (Nc : new_cap E (st_cap (u_st u)) m = Nat.max (2 * st_cap (u_st u)) m).
  { unfold new_cap. replace (st_cap (u_st u) <? max_size E - st_cap (u_st u)) with true by (symmetry; apply Nat.ltb_lt; cbn [E pool_env max_size]; lia).
    cbv zeta. destruct (2 * st_cap (u_st u) <? m) eqn:E2; [apply Nat.ltb_lt in E2|apply Nat.ltb_ge in E2]; lia. }
  rewrite Nc. set (c' := Nat.max _ _). assert (C1 : 2 * st_cap (u_st u) <= c') by lia. assert (C2 : c' <= 4 * n + 2) by lia.
  pose proof (allocs_le u n (sh_any _ _ Sh) ltac:(lia)) as A1.
  set (y := mk_placed (mk_url (mk_storage None 0 c' (S (st_allocs (u_st u)))) (u_pt u) None) 0%N).
  pose proof (costs_put x y _ _ Hx) as C.
  assert (B : costs (put_at i y (w_urls w)) <= enough_to_edit ns).
  { apply costs_bound2; [rewrite length_put; exact HL|]. intros j z Hz. rewrite nth_put in Hz by exact Hi. destruct (j =? i) eqn:Ej.
    - apply Nat.eqb_eq in Ej. subst j. injection Hz as <-. unfold cost, y. cbn [pl_url u_st st_cap st_allocs]. fold n. lia.
    - exact (cost_short _ _ (Hs j z Hz)). }
  unfold cost in C. change (st_cap (u_st (pl_url y))) with c' in C. change (st_allocs (u_st (pl_url y))) with (S (st_allocs (u_st u))) in C. fold u in C.
  cbn [E pool_env alloc_ok]. apply andb_true_intro. split; [apply N.ltb_lt; lia|].
  rewrite (pool_chars W base cap (conj M1 M2) _ _ Hp Hpb Hpc) by lia.
  replace (N.of_nat (c' + 1) <=? base + cap - p_top (w_pool w))%N with true by (symmetry; apply N.leb_le; lia). reflexivity.
Qed.
Theorem edit_pool_enough w i x c a : edit_program W largest d (at_most ns) (new_world base cap (length ns)) w -> (N.of_nat (enough_to_edit ns) <= cap)%N ->
  nth_error (w_urls w) i = Some x -> rep (part_texts a) (pl_url x) -> works d c a (pl_url x) ->
  (exists a', result c a a') -> (forall a', result c a a' -> length (recompose a') <= nth i ns 0 /\ length (recompose a') + 2 <= largest) ->
  fst (call_on W largest (fun E => perform E c) d i w) = Val tt.
Proof.
  intros H HN Hx R Hw (a0 & Ha0) Hlen. pose proof (edit_program_inv3 w H) as I3. pose proof I3 as [I HL Hs Hu].
  set (E := pool_env W largest d (w_pool w)). assert (HE : env_ok E) by apply pool_env_ok.
  assert (HA : allowed d c (pl_url x)).
  { destruct c as [o|e]; cbn [works allowed] in *; [|destruct Hw as (K1 & K2 & _); exists a; auto]. destruct Hw as (Ha & Hm). split; [exact Ha|].
    intros b Rb. replace b with a by exact (Rep_unique _ _ _ R Rb). destruct o; try exact Hm. exact (fun z => z). }
  destruct (call_on W largest (fun E => perform E c) d i w) as [r w'] eqn:Ec. cbn [fst].
  destruct (inv_action w i x c r w' I Hx HA Ec) as (_ & _ & (u & p & Hp & _) & _). fold E in Hp.
  assert (G : fst (perform E c (pl_url x)) = Val tt); [|rewrite Hp in G; exact G]. clear Hp Ec.
  pose proof (Hs i x Hx) as Sh. destruct c as [o|e]; cbn [works result perform fst] in *.
  - destruct Hw as (Ha & Hm). destruct (run_spec E HE o a (pl_url x) Ha R Hm) as [(a' & Hs' & _ & u' & Er & Ef)|[(a' & Hs' & He & _)|(Hno & _)]].
    + rewrite Er. reflexivity.
    + exfalso. destruct (Hlen a' Hs') as (L1 & L2).
      assert (Hneed : need o a a' <= length (recompose a') + 2).
      { unfold need. destruct o; try lia. destruct s as [|c [|c' s]]; destruct (uri_authority a); lia. }
      assert (F : fits E (pl_url x) (need o a a') = true).
      { apply (pool_fits w i x); auto. lia. }
      assert (K : enough E (pl_url x) o a a' = true); [|congruence].
      unfold enough. destruct (replaces o); [exact F|]. unfold room. rewrite F, andb_true_r. apply orb_true_iff. right. apply Nat.leb_le. cbn [E pool_env size_max]. lia.
    + destruct (Hno a0 Ha0).
  - destruct Hw as (Hus & Hi & Hsync & Has). destruct Ha0 as (V & _). destruct (Hlen _ (conj V eq_refl)) as (L1 & _).
    assert (Hed : editable (dbg E) (pl_url x) a) by (apply usable_editable; [exact Hus|exact Hsync]).
    destruct (edit_ok E (pl_url x) a e HE Hed Hi) as (A1 & _ & _).
    destruct (A1 V Has) as [(_ & u' & q & Er & _)|(F & _)]; [rewrite Er; reflexivity|]. exfalso.
    unfold E in F. rewrite (pool_fits w i x (edit_need e (pl_url x) a) I3 HN Hx) in F; [discriminate|].
    apply edit_need_le; [exact Hi|exact (sh_usize _ _ Sh)|exact (sh_size _ _ Sh)|exact L1].
Qed.
End Pool.
