(** * ProofsLaws: laws of segment edits, and edits in loops *)

From Verif Require Import Base ModelChar ModelParts ModelParse ModelView ModelUrl SpecChar SpecGrammar SpecLink SpecView SpecStore SpecUrl SpecHistory SpecSegments SpecMixed SpecAlike SpecLaws.
From Verif Require Import ProofsChar ProofsParse ProofsRfc ProofsView ProofsSetParse ProofsMem ProofsUrl ProofsRun ProofsHistory ProofsIter ProofsSegments ProofsMixed ProofsAlike.

Theorem list_decides d u a es1 es2 u1 u2 : editable d u a -> edit_history d u es1 u1 -> edit_history d u es2 u2 ->
  list_edits es1 (the_segments a) = list_edits es2 (the_segments a) -> alike u1 u2.
Proof.
  intros H H1 H2 E. destruct (edit_history_ok d u a es1 u1 H H1) as (B1 & _ & C1). destruct (edit_history_ok d u a es2 u2 H H2) as (B2 & _ & C2).
  rewrite E in B1. exact (editable_alike d _ u1 u2 B1 B2 ltac:(congruence)).
Qed.

(** ** Positions *)
Lemma position_of d u a i : editable d u a -> i <= length (the_segments a) -> position d u i = Val (seg_pos (view_of u) a i).
Proof. intros [R (C & _) _ _] Hi. exact (position_pos d u a i R C Hi). Qed.
Lemma position_alike d u1 u2 i : editable d u1 i -> forall b k, editable d u2 b -> alike u1 u2 -> k <= length (the_segments i) -> position d u1 k = position d u2 k.
Proof.
  intros H1 b k H2 A Hk. assert (b = i) by (symmetry; exact (alike_components _ _ _ _ (ed_rep _ _ _ H1) (ed_rep _ _ _ H2) A)). subst b.
  rewrite (position_of d u1 i k H1 Hk), (position_of d u2 i k H2 Hk). destruct A as (P & _). unfold seg_pos, view_of. cbn [v_pt]. rewrite P. reflexivity.
Qed.

(** A successful edit *)
Lemma edit_returned E u a e p u' : env_ok E -> editable (dbg E) u a -> in_range e a -> run_edit E e u = (Val p, u') ->
  text_valid e /\ ~ asserts (dbg E) e a /\ editable (dbg E) u' (with_segments (list_edit e (the_segments a)) a) /\
  the_segments (with_segments (list_edit e (the_segments a)) a) = list_edit e (the_segments a) /\
  host (u_pt u') = host (u_pt u) /\ position (dbg E) u' (returned e) = Val p.
Proof.
  intros HE B Hr X. destruct (edit_ok E u a e HE B Hr) as (Q1 & Q2 & Q3).
  destruct (text_valid_dec e) as [V|V]; [|rewrite (Q3 V) in X; discriminate].
  destruct (asserts_dec (dbg E) e a) as [D|D].
  - destruct (Q2 V D) as [(_ & w & Y & _)|(_ & Y)]; rewrite X in Y; discriminate.
  - destruct (Q1 V D) as [(_ & w & q & Y & W)|(_ & Y)]; rewrite X in Y; [|discriminate]. injection Y as <- <-. tauto.
Qed.

Lemma fits_enough E u n : n <= st_cap (u_st u) -> fits E u n = true.
Proof. intros H. unfold fits. apply Nat.leb_le in H. rewrite H. reflexivity. Qed.

(** An edit that must succeed *)
Lemma edit_succeeds E u a e : env_ok E -> editable (dbg E) u a -> in_range e a -> text_valid e -> ~ asserts (dbg E) e a -> fits E u (edit_need e u a) = true ->
  exists p u', run_edit E e u = (Val p, u') /\ editable (dbg E) u' (with_segments (list_edit e (the_segments a)) a) /\
  the_segments (with_segments (list_edit e (the_segments a)) a) = list_edit e (the_segments a) /\
  host (u_pt u') = host (u_pt u) /\ position (dbg E) u' (returned e) = Val p.
Proof.
  intros HE B Hr V D F. destruct (edit_ok E u a e HE B Hr) as (Q1 & _). destruct (Q1 V D) as [(_ & w & q & Y & W)|(F' & _)]; [|congruence]. exists q, w. tauto.
Qed.

Lemma rooted_after a ss : proper (rooted (uri_path a)) ss -> rooted (uri_path (with_segments ss a)) = rooted (uri_path a).
Proof. intros P. unfold with_segments. cbn [with_path uri_path]. apply rooted_to_path, P. Qed.
Lemma query_after a ss : uri_query (with_segments ss a) = uri_query a.
Proof. reflexivity. Qed.

Lemma erase_insert_list {A} i (x : A) l : i <= length l -> erase_range i (S i) (insert_nth i x l) = l.
Proof.
  unfold erase_range, insert_nth. revert l. induction i as [|i IH]; intros l H; [reflexivity|].
  destruct l as [|y l]; cbn [length] in H; [lia|]. cbn [firstn skipn app]. f_equal. apply IH. lia.
Qed.
Lemma insert_erase_list {A} i (l : list A) z : i < length l -> insert_nth i (nth i l z) (erase_range i (S i) l) = l.
Proof.
  unfold erase_range, insert_nth. revert l. induction i as [|i IH]; intros l H; (destruct l as [|y l]; cbn [length] in H; [lia|]); [reflexivity|].
  cbn [firstn skipn app nth]. f_equal. apply IH. lia.
Qed.
Lemma replace_as_erase_insert {A} i (x : A) l : i < length l -> insert_nth i x (erase_range i (S i) l) = replace_nth i x l.
Proof.
  unfold erase_range, insert_nth, replace_nth. revert l. induction i as [|i IH]; intros l H; (destruct l as [|y l]; cbn [length] in H; [lia|]); [reflexivity|].
  cbn [firstn skipn app]. f_equal. apply IH. lia.
Qed.

(** ** The capacity never shrinks *)
Definition keeps_cap {A} (m : U A) : Prop := forall u r u', m u = (r, u') -> st_cap (u_st u) <= st_cap (u_st u').
Lemma kc_bind {A B} (m : U A) (f : A -> U B) : keeps_cap m -> (forall x, keeps_cap (f x)) -> keeps_cap (bind m f).
Proof.
  intros H1 H2 u r u' X. unfold bind in X. destruct (m u) as [y u1] eqn:Y. apply H1 in Y. destruct y; try (injection X as _ <-; exact Y). apply H2 in X. lia.
Qed.
Lemma kc_same {A} (m : U A) : (forall u, snd (m u) = u) -> keeps_cap m.
Proof. intros H u r u' X. specialize (H u). rewrite X in H. cbn [snd] in H. subst. lia. Qed.
Lemma kc_ret {A} (x : A) : keeps_cap (ret x). Proof. apply kc_same. reflexivity. Qed.
Lemma kc_lift {A} (x : outcome A) : keeps_cap (lift x). Proof. apply kc_same. intros u. destruct x; reflexivity. Qed.
Lemma kc_assert E b : keeps_cap (uassert E b). Proof. apply kc_lift. Qed.
Lemma kc_observe {A} (f : view -> outcome A) : keeps_cap (observe f). Proof. apply kc_same. reflexivity. Qed.
Lemma kc_get : keeps_cap get_st. Proof. apply kc_same. reflexivity. Qed.
Lemma kc_upt pt : keeps_cap (set_upt pt). Proof. intros u r u' X. injection X as _ <-. cbn. lia. Qed.
Lemma kc_memmove a b n : keeps_cap (memmove a b n).
Proof. intros u r u' X. unfold memmove in X. destruct (live_buf u); [destruct (_ && _)|]; injection X as _ <-; cbn; lia. Qed.
Lemma kc_upt_resize i n : keeps_cap (upt_resize i n).
Proof. apply kc_bind; [apply kc_same; reflexivity|]. intros pt. destruct (presize pt i n); [apply kc_upt|apply kc_lift]. Qed.
Lemma kc_nul E : keeps_cap (assert_nul_at_end E).
Proof. unfold assert_nul_at_end. destruct (dbg E); [|apply kc_ret]. apply kc_bind; [apply kc_get|]. intros u. apply kc_bind; [apply kc_observe|]. intros c. apply kc_assert. Qed.
Lemma kc_resize E n : env_ok E -> keeps_cap (st_resize E n).
Proof.
  intros HE. apply kc_bind.
  - intros u r u' X. unfold st_reserve in X. destruct (n <=? st_cap (u_st u)); [injection X as _ <-; lia|]. fold (new_cap E (st_cap (u_st u)) n) in X.
    destruct (alloc_ok E (st_allocs (u_st u)) (new_cap E (st_cap (u_st u)) n + 1)) eqn:Ea; cbn [negb] in X; [|injection X as _ <-; lia].
    apply new_cap_mono in Ea; [|exact HE]. destruct (st_buf (u_st u)); [destruct (_ && _)|]; injection X as _ <-; cbn [u_st st_cap]; lia.
  - intros [p|]; [|apply kc_ret]. intros u r u' X. cbv zeta in X. destruct (st_buf (u_st u)) as [b|]; [destruct (n <? length b)|]; injection X as _ <-; cbn; lia.
Qed.
Lemma kc_erase E p : env_ok E -> keeps_cap (seg_erase E p).
Proof.
  intros HE. unfold seg_erase, seg_erase2. apply kc_bind; [apply kc_observe|]. intros last.
  apply kc_bind; [apply kc_get|]. intros u.
  do 5 (apply kc_bind; [apply kc_assert|]; intros ?).
  destruct (_ =? _); [apply kc_ret|]. destruct (_ <? _); [apply kc_lift|].
  apply kc_bind; [apply kc_observe|]. intros c. do 2 (apply kc_bind; [apply kc_assert|]; intros ?).
  destruct (_ <? _); [apply kc_lift|].
  apply kc_bind; [apply kc_upt|]. intros _. apply kc_bind; [apply kc_memmove|]. intros _. apply kc_bind; [apply kc_upt_resize|]. intros _.
  apply kc_bind; [apply kc_get|]. intros u1. apply kc_bind; [apply kc_assert|]. intros _. apply kc_bind; [apply kc_resize, HE|]. intros q.
  apply kc_bind; [apply kc_get|]. intros u2. apply kc_bind; [apply kc_assert|]. intros _. apply kc_bind; [apply kc_nul|]. intros _. apply kc_observe.
Qed.
Lemma usize_cap d u a : editable d u a -> usize u <= st_cap (u_st u).
Proof.
  intros [R _ _ _]. rewrite (rep_usize _ _ R). destruct R as [ns np h Hc _|rest sz cap k ns np h _ (Z1 & Z2)]; [rewrite Hc; cbn; lia|]. rewrite map_length in Z2. cbn [u_st st st_cap]. lia.
Qed.

Lemma absolute_app l1 l2 : absolute_path (l1 ++ l2) = absolute_path l1 ++ absolute_path l2.
Proof. unfold absolute_path. rewrite map_app. apply concat_app. Qed.
Lemma to_path_length root ss : (root = false -> ss <> []) -> length (to_path root ss) + (if root then 0 else 1) = length (absolute_path ss).
Proof.
  intros H. destruct root; [cbn; lia|]. destruct ss as [|s r]; [destruct (H eq_refl eq_refl)|]. unfold absolute_path. cbn [to_path map concat app length]. rewrite !app_length. unfold absolute_path. lia.
Qed.
Lemma erase_length i l : i < length l -> length (absolute_path (erase_range i (S i) l)) + (length (nth i l []) + 1) = length (absolute_path l).
Proof.
  intros H. rewrite <- (insert_erase_list i l [] H) at 3. unfold insert_nth. remember (erase_range i (S i) l) as m. rewrite <- (firstn_skipn i m) at 1.
  rewrite !absolute_app, !app_length. change (absolute_path (nth i l [] :: skipn i m)) with (("/"%char :: nth i l []) ++ absolute_path (skipn i m)). rewrite app_length. cbn [length]. lia.
Qed.
Lemma recompose_path_length a p : length (recompose (with_path p a)) + length (uri_path a) = length (recompose a) + length p.
Proof. destruct a as [s au q qu f]. unfold recompose, with_path. cbn [uri_path uri_scheme uri_authority uri_query uri_fragment]. rewrite !app_length. lia. Qed.

(** ** The laws *)
Theorem insert_then_erase E1 E2 u a e i p u1 r u2 : env_ok E1 -> env_ok E2 -> dbg E1 = dbg E2 -> editable (dbg E1) u a ->
  inserts e i -> in_range e a -> run_edit E1 e u = (Val p, u1) -> run_edit E2 (Erase i) u1 = (r, u2) ->
  alike u2 u /\ exists q, r = Val q /\ position (dbg E1) u i = Val q.
Proof.
  intros HE1 HE2 Hd B He Hr X1 X2.
  assert (K : exists x, list_edit e (the_segments a) = insert_nth i x (the_segments a) /\ edit_to e = i /\ edit_at e = i) by (destruct He as (s & [-> | ->]); eexists; cbn; eauto).
  destruct K as (x & Ke & Kt & Ka). destruct (edit_returned E1 u a e p u1 HE1 B Hr X1) as (V & D & B1 & Ls & H1 & _).
  rewrite Ke in *. set (a1 := with_segments (insert_nth i x (the_segments a)) a) in *.
  assert (P1 : proper (rooted (uri_path a)) (insert_nth i x (the_segments a))) by (rewrite <- Ke; apply proper_edit; assumption).
  assert (Ll : length (the_segments a1) = S (length (the_segments a))).
  { rewrite Ls. unfold insert_nth. rewrite app_length, firstn_length. cbn [length]. rewrite skipn_length. destruct Hr as ((_ & Hr) & _). rewrite Kt in Hr. lia. }
  destruct Hr as ((Hr1 & Hr2) & Hr3). rewrite Kt, Ka in *.
  assert (Hr' : in_range (Erase i) a1).
  { split; cbn [edit_at edit_to]; [lia|]. unfold a1. rewrite rooted_after by exact P1. exact Hr3. }
  destruct (edit_succeeds E2 u1 a1 (Erase i) HE2 ltac:(rewrite <- Hd; exact B1) Hr' I) as (q & w & Y & B2 & _ & H2 & Q).
  - intros (D1 & _ & D2 & D3). apply D. rewrite Hd. split; [exact D1|]. split; [destruct He as (s & [-> | ->]); exact (fun K => K)|].
    cbn [edit_to] in D2. split; [rewrite Kt; lia|exact D3].
  - apply fits_enough. cbn [edit_need]. lia.
  - rewrite X2 in Y. injection Y as -> ->. cbn [list_edit returned] in *. rewrite Ls, erase_insert_list in B2 by lia.
    unfold a1 in B2. rewrite with_segments_twice, with_segments_same in B2 by exact P1. rewrite <- Hd in *.
    assert (A : alike w u) by exact (editable_alike _ _ _ _ B2 B ltac:(congruence)). split; [exact A|]. exists q. split; [reflexivity|].
    rewrite <- Q. symmetry. exact (position_alike _ _ _ _ B2 a i B A ltac:(lia)).
Qed.

Theorem erase_then_insert E1 E2 u a i p u1 r u2 : env_ok E1 -> env_ok E2 -> dbg E1 = dbg E2 -> editable (dbg E1) u a ->
  in_range (Erase i) a -> run_edit E1 (Erase i) u = (Val p, u1) ->
  run_edit E2 (Insert_encoded i (nth i (the_segments a) [])) u1 = (r, u2) ->
  (upper_text k_pchar (nth i (the_segments a) []) -> alike u2 u /\ exists q, r = Val q /\ position (dbg E1) u (S i) = Val q) /\
  (~ upper_text k_pchar (nth i (the_segments a) []) -> r = Exn invalid_part /\ u2 = u1).
Proof.
  intros HE1 HE2 Hd B Hr X1 X2. set (s := nth i (the_segments a) []) in *.
  assert (Hi : i < length (the_segments a)) by (destruct Hr as (Hr & _); cbn in Hr; lia).
  destruct (edit_returned E1 u a (Erase i) p u1 HE1 B Hr X1) as (V & D & B1 & Ls & H1 & _). cbn [list_edit] in *.
  assert (P1 : proper (rooted (uri_path a)) (erase_range i (S i) (the_segments a))) by exact (proper_edit (Erase i) a Hr I).
  set (a1 := with_segments (erase_range i (S i) (the_segments a)) a) in *.
  assert (Ll : S (length (the_segments a1)) = length (the_segments a)).
  { rewrite Ls. unfold erase_range. rewrite app_length, firstn_length, skipn_length. lia. }
  assert (Hr' : in_range (Insert_encoded i s) a1).
  { split; cbn [edit_at edit_to]; [lia|]. unfold a1. rewrite rooted_after by exact P1. exact (proj2 Hr). }
  rewrite Hd in B1. split; intros T.
  - destruct (edit_succeeds E2 u1 a1 (Insert_encoded i s) HE2 B1 Hr' T) as (q & w & Y & B2 & _ & H2 & Q).
    + intros (D1 & _ & D2 & D3). apply D. rewrite Hd. split; [exact D1|]. split; [exact (fun K => K)|]. split; [cbn [edit_to] in *; lia|exact D3].
    + apply fits_enough. cbn [edit_need]. pose proof (usize_cap _ _ _ B) as C. 
      assert (C1 : st_cap (u_st u) <= st_cap (u_st u1)).
      { cbn [run_edit] in X1. exact (kc_bind _ _ (kc_same (at_position E1 i) (fun u => eq_refl)) (fun p => kc_erase E1 p HE1) u _ _ X1). }
      assert (Sz : usize u1 + (length s + 1) = usize u); [|lia].
      rewrite (rep_usize _ _ (ed_rep _ _ _ B)), (rep_usize _ _ (ed_rep _ _ _ B1)), !concat_parts.
      pose proof (recompose_path_length a (uri_path a1)) as Q1. change (with_path (uri_path a1) a) with a1 in Q1.
      pose proof (to_path_length (rooted (uri_path a)) (erase_range i (S i) (the_segments a))) as Q2.
      pose proof (to_path_length (rooted (uri_path a)) (the_segments a)) as Q3. pose proof (erase_length i (the_segments a) Hi) as Q4. fold s in Q4.
      change (to_path (rooted (uri_path a)) (erase_range i (S i) (the_segments a))) with (uri_path a1) in Q2.
      change (to_path (rooted (uri_path a)) (the_segments a)) with (uri_path (with_segments (the_segments a) a)) in Q3. rewrite with_segments_same in Q3.
      assert (N : forall ss, proper (rooted (uri_path a)) ss -> rooted (uri_path a) = false -> ss <> []) by (intros ss (_ & N) F; destruct (N F) as (? & ? & ? & ->); discriminate).
      specialize (Q2 (N _ P1)). specialize (Q3 (N _ (proper_path (uri_path a)))). lia.
    + rewrite X2 in Y. injection Y as -> ->. cbn [list_edit returned] in *. rewrite Ls in B2. unfold s in B2. rewrite insert_erase_list in B2 by lia.
      unfold a1 in B2. rewrite with_segments_twice, with_segments_same in B2 by exact P1. rewrite <- Hd in *.
      assert (A : alike w u) by exact (editable_alike _ _ _ _ B2 B ltac:(congruence)). split; [exact A|]. exists q. split; [reflexivity|].
      rewrite <- Q. symmetry. exact (position_alike _ _ _ _ B2 a (S i) B A ltac:(lia)).
  - destruct (edit_ok E2 u1 a1 (Insert_encoded i s) HE2 B1 Hr') as (_ & _ & Q3). rewrite (Q3 T) in X2. injection X2 as <- <-. auto.
Qed.

Theorem replace_is_erase_insert E1 E2 E3 u a i s (enc : bool) p u1 q v r w : env_ok E1 -> env_ok E2 -> env_ok E3 -> dbg E2 = dbg E1 -> dbg E3 = dbg E1 ->
  editable (dbg E1) u a -> in_range (Erase i) a ->
  run_edit E1 (if enc then Replace_encoded i s else Replace i s) u = (Val p, u1) ->
  run_edit E2 (Erase i) u = (Val q, v) ->
  run_edit E3 (if enc then Insert_encoded i s else Insert i s) v = (Val r, w) ->
  alike u1 w /\ p = r.
Proof.
  intros HE1 HE2 HE3 D2 D3 B Hr X1 X2 X3.
  assert (Hi : i < length (the_segments a)) by (destruct Hr as (Hr & _); cbn in Hr; lia).
  set (x := if enc then s else canonical_encoding k_pchar s).
  set (e1 := if enc then Replace_encoded i s else Replace i s) in *. set (e3 := if enc then Insert_encoded i s else Insert i s) in *.
  assert (Hr1 : in_range e1 a) by (unfold e1; destruct enc; exact Hr).
  assert (L1 : list_edit e1 (the_segments a) = replace_nth i x (the_segments a) /\ returned e1 = S i) by (unfold e1, x; destruct enc; split; reflexivity).
  destruct L1 as (L1 & T1).
  destruct (edit_returned E1 u a e1 p u1 HE1 B Hr1 X1) as (_ & _ & B1 & Ls1 & H1 & Q1). rewrite <- D2 in B.
  destruct (edit_returned E2 u a (Erase i) q v HE2 B Hr X2) as (_ & _ & B2 & Ls2 & H2 & _). cbn [list_edit] in *.
  set (a2 := with_segments (erase_range i (S i) (the_segments a)) a) in *.
  assert (P2 : proper (rooted (uri_path a)) (erase_range i (S i) (the_segments a))) by exact (proper_edit (Erase i) a Hr I).
  assert (Hr3 : in_range e3 a2).
  { assert (edit_at e3 = i /\ edit_to e3 = i) as (K1 & K2) by (unfold e3; destruct enc; split; reflexivity). split; rewrite K1, ?K2.
    - rewrite Ls2. unfold erase_range. rewrite app_length, firstn_length, skipn_length. lia.
    - unfold a2. rewrite rooted_after by exact P2. exact (proj2 Hr). }
  rewrite D2, <- D3 in B2.
  destruct (edit_returned E3 v a2 e3 r w HE3 B2 Hr3 X3) as (_ & _ & B3 & Ls3 & H3 & Q3).
  assert (L3 : list_edit e3 (the_segments a2) = replace_nth i x (the_segments a) /\ returned e3 = S i).
  { rewrite Ls2. rewrite <- (replace_as_erase_insert i x (the_segments a) Hi). unfold e3, x; destruct enc; split; reflexivity. }
  destruct L3 as (L3 & T3). rewrite L3 in *. rewrite L1 in *. rewrite T1 in Q1. rewrite T3 in Q3. unfold a2 in B3. rewrite with_segments_twice in B3 by exact P2. rewrite D3 in B3, Q3.
  assert (A : alike u1 w) by exact (editable_alike _ _ _ _ B1 B3 ltac:(congruence)). split; [exact A|].
  rewrite (position_alike _ _ _ _ B1 _ (S i) B3 A) in Q1; [congruence|]. rewrite Ls1. unfold replace_nth. rewrite app_length, firstn_length. cbn [length]. lia.
Qed.

(** ** Loops *)
Lemma erase_at E u a i : editable (dbg E) u a -> i <= length (the_segments a) -> seg_erase E (seg_pos (view_of u) a i) u = run_edit E (Erase i) u.
Proof. intros B Hi. cbn [run_edit]. unfold bind, at_position. rewrite (position_of _ _ _ _ B Hi). reflexivity. Qed.
Lemma insert_at E u a i s : editable (dbg E) u a -> i <= length (the_segments a) -> seg_insert E (seg_pos (view_of u) a i) s u = run_edit E (Insert i s) u.
Proof. intros B Hi. cbn [run_edit]. unfold bind, at_position. rewrite (position_of _ _ _ _ B Hi). reflexivity. Qed.
Lemma bind_run {A B} (m : U A) (f : A -> U B) u x w : m u = (Val x, w) -> bind m f u = f x w.
Proof. intros H. unfold bind. rewrite H. reflexivity. Qed.

Lemma erase_one {A} i (l : list A) n : erase_range i (i + n) (erase_range i (S i) l) = erase_range i (i + S n) l.
Proof.
  unfold erase_range. revert l. induction i as [|i IH]; intros l; [destruct l; cbn; [rewrite skipn_nil; reflexivity|reflexivity]|].
  destruct l as [|y l]; [reflexivity|]. cbn [firstn skipn app Nat.add]. f_equal. exact (IH l).
Qed.

Theorem erase_loop_ok E a i : env_ok E -> forall n u b p, editable (dbg E) u b -> rooted (uri_path b) = true \/ 0 < i -> i + n <= length (the_segments b) ->
  (forall ss, with_segments ss b = with_segments ss a) ->
  position (dbg E) u i = Val p ->
  exists u', left_with E u' a (erase_range i (i + n) (the_segments b)) /\
    ((~ (dbg E = true /\ 0 < n /\ at_end_without_query b (i + n)) -> host (u_pt u') = host (u_pt u) /\ exists q, erase_loop E n p u = (Val q, u') /\ position (dbg E) u' i = Val q) /\
     (dbg E = true /\ 0 < n /\ at_end_without_query b (i + n) -> erase_loop E n p u = (Abort, u'))).
Proof.
  intros HE. induction n as [|n IH]; intros u b p B Hr Hn Hw Hp.
  - exists u. unfold left_with. rewrite Nat.add_0_r. unfold erase_range. rewrite firstn_skipn. rewrite <- Hw, with_segments_same.
    split; [auto|]. split; [intros _; split; [reflexivity|]; exists p; auto|intros (_ & K & _); lia].
  - rewrite (position_of (dbg E) u b i B ltac:(lia)) in Hp. injection Hp as <-. cbn [erase_loop].
    assert (Hr1 : in_range (Erase i) b) by (split; cbn; [lia|exact Hr]).
    assert (P1 : proper (rooted (uri_path b)) (erase_range i (S i) (the_segments b))) by exact (proper_edit (Erase i) b Hr1 I).
    assert (F : fits E u (edit_need (Erase i) u b) = true) by (apply fits_enough; cbn; lia).
    destruct (asserts_dec (dbg E) (Erase i) b) as [D|D].
    + destruct (edit_ok E u b (Erase i) HE B Hr1) as (_ & Q & _). destruct (Q I D) as [(_ & u' & Y & W)|(F' & _)]; [|congruence].
      destruct D as (D1 & _ & D2 & D3). cbn [edit_to until_assertion list_edit] in *. assert (n = 0) by lia. subst n.
      exists u'. replace (i + 1) with (S i) by lia. split.
      * split; [rewrite <- Hw; exact W|]. rewrite <- Hw. apply with_segments_segments, P1.
      * split; [intros K; destruct K; repeat split; auto; lia|]. intros _. rewrite <- (erase_at E u b i B ltac:(lia)) in Y. unfold bind. rewrite Y. reflexivity.
    + destruct (edit_succeeds E u b (Erase i) HE B Hr1 I D F) as (q & u1 & Y & B1 & Ls & H1 & Q). cbn [list_edit returned] in *.
      rewrite <- (erase_at E u b i B ltac:(lia)) in Y. rewrite (bind_run _ _ _ _ _ Y).
      set (b1 := with_segments (erase_range i (S i) (the_segments b)) b) in *.
      assert (L1 : S (length (the_segments b1)) = length (the_segments b)) by (rewrite Ls; unfold erase_range; rewrite app_length, firstn_length, skipn_length; lia).
      destruct (IH u1 b1 q B1) as (u' & (W1 & W2) & K1 & K2).
      * unfold b1. rewrite rooted_after by exact P1. exact Hr.
      * lia.
      * intros ss. unfold b1. rewrite with_segments_twice by exact P1. apply Hw.
      * exact Q.
      * assert (Z : at_end_without_query b1 (i + n) <-> at_end_without_query b (i + S n)).
        { unfold at_end_without_query. change (uri_query b1) with (uri_query b). split; intros (Z1 & Z2); (split; [lia|exact Z2]). }
        rewrite Ls, erase_one in W1, W2. exists u'. split; [split; [exact W1|exact W2]|].
        split.
        -- intros G. rewrite <- H1. apply K1. intros (G1 & G2 & G3). apply G. split; [exact G1|]. split; [lia|apply Z, G3].
        -- intros (G1 & G2 & G3). destruct n as [|n]; [|apply K2; split; [exact G1|]; split; [lia|apply Z, G3]].
           exfalso. apply D. split; [exact G1|]. split; [exact (fun K => K)|]. destruct G3 as (G3 & G4). split; [cbn [edit_to]; lia|exact G4].
Qed.

Lemma insert_all_cons i x xs l : i <= length l -> insert_all (S i) xs (insert_nth i x l) = insert_all i (x :: xs) l.
Proof.
  unfold insert_all, insert_nth. revert l. induction i as [|i IH]; intros l H; [reflexivity|]. destruct l as [|y l]; cbn [length] in H; [lia|].
  cbn [firstn skipn app]. f_equal. exact (IH l ltac:(lia)).
Qed.

Theorem insert_loop_ok E a : env_ok E -> forall ss i u b p, editable (dbg E) u b -> rooted (uri_path b) = true \/ 0 < i -> i <= length (the_segments b) ->
  (forall l, with_segments l b = with_segments l a) -> position (dbg E) u i = Val p -> ~ (dbg E = true /\ at_end_without_query b i) ->
  exists u' k, k <= length ss /\ left_with E u' a (insert_all i (map (canonical_encoding k_pchar) (firstn k ss)) (the_segments b)) /\ host (u_pt u') = host (u_pt u) /\
    ((k = length ss /\ exists q, insert_loop E p ss u = (Val q, u') /\ position (dbg E) u' (i + k) = Val q) \/
     (k < length ss /\ insert_loop E p ss u = (Exn bad_alloc, u') /\
      fits E u' (usize u' + (length (canonical_encoding k_pchar (nth k ss [])) + 1)) = false)).
Proof.
  intros HE. induction ss as [|s ss IH]; intros i u b p B Hr Hi Hw Hp Hq.
  - exists u, 0. cbn [length firstn map]. split; [lia|]. unfold left_with, insert_all. cbn [app]. rewrite firstn_skipn, <- Hw, with_segments_same.
    split; [auto|]. split; [reflexivity|]. left. split; [reflexivity|]. exists p. rewrite Nat.add_0_r. auto.
  - rewrite (position_of (dbg E) u b i B Hi) in Hp. injection Hp as <-. cbn [insert_loop].
    assert (Hr1 : in_range (Insert i s) b) by (split; cbn; [lia|exact Hr]).
    assert (D : ~ asserts (dbg E) (Insert i s) b) by (intros (D1 & _ & D2); exact (Hq (conj D1 D2))).
    assert (P1 : proper (rooted (uri_path b)) (insert_nth i (canonical_encoding k_pchar s) (the_segments b))) by exact (proper_edit (Insert i s) b Hr1 I).
    destruct (edit_ok E u b (Insert i s) HE B Hr1) as (Q & _). rewrite <- (insert_at E u b i s B Hi) in Q. destruct (Q I D) as [(_ & u1 & q & Y & B1 & Ls & H1 & Q1)|(F & Y)].
    + cbn [list_edit returned] in *. rewrite (bind_run _ _ _ _ _ Y). set (b1 := with_segments (insert_nth i (canonical_encoding k_pchar s) (the_segments b)) b) in *.
      assert (L1 : length (the_segments b1) = S (length (the_segments b))) by (rewrite Ls; unfold insert_nth; rewrite app_length, firstn_length; cbn [length]; rewrite skipn_length; lia).
      destruct (IH (S i) u1 b1 q B1) as (u' & k & Hk & W & Hh & K).
      * right. lia.
      * lia.
      * intros l. unfold b1. rewrite with_segments_twice by exact P1. apply Hw.
      * exact Q1.
      * intros (G1 & G2 & G3). apply Hq. split; [exact G1|]. split; [lia|exact G3].
      * rewrite Ls, insert_all_cons in W by exact Hi. exists u', (S k). cbn [length firstn map nth]. split; [lia|]. split; [exact W|]. split; [congruence|].
        replace (i + S k) with (S i + k) by lia. destruct K as [(K1 & K2)|(K1 & K2)]; [left; split; [lia|exact K2]|right; split; [lia|exact K2]].
    + exists u, 0. cbn [firstn map length]. split; [lia|]. unfold left_with, insert_all. cbn [app]. rewrite firstn_skipn, <- Hw, with_segments_same.
      split; [auto|]. split; [reflexivity|]. right. split; [lia|]. split; [unfold bind; rewrite Y; reflexivity|exact F].
Qed.

Lemma erase_middle {A} (l1 : list A) x l2 : erase_range (length l1) (S (length l1)) (l1 ++ x :: l2) = l1 ++ l2.
Proof. unfold erase_range. induction l1 as [|y l1 IH]; [reflexivity|]. cbn [length firstn skipn app]. f_equal. exact IH. Qed.
Lemma nth_middle' {A} (l1 : list A) x l2 z : nth (length l1) (l1 ++ x :: l2) z = x.
Proof. induction l1 as [|y l1 IH]; [reflexivity|exact IH]. Qed.
Lemma last_is_cons f x y l : last_is f (x :: y :: l) <-> last_is f (y :: l).
Proof.
  split; intros (front & s & H & F).
  - destruct front as [|z front]; [discriminate|]. injection H as _ H. exists front, s. auto.
  - exists (x :: front), s. rewrite H. auto.
Qed.

Lemma erase_if_step E f n u b i : editable (dbg E) u b -> i <= length (the_segments b) ->
  erase_if E f (S n) (seg_pos (view_of u) b i) u =
  if i =? length (the_segments b) then (Val (seg_pos (view_of u) b i), u)
  else if f (nth i (the_segments b) []) then bind (seg_erase E (seg_pos (view_of u) b i)) (erase_if E f n) u
  else erase_if E f n (seg_pos (view_of u) b (S i)) u.
Proof.
  intros B Hi. pose proof (rep_holds _ _ (ed_rep _ _ _ B)) as H. cbn [erase_if]. unfold bind at 1, observe at 1. rewrite (seg_end_pos (dbg E) (view_of u) b H). fold (the_segments b).
  unfold bind at 1, lift. rewrite (seg_eq_pos (dbg E) (view_of u) b i (length (the_segments b)) Hi (le_n _)).
  destruct (Nat.eqb_spec i (length (the_segments b))) as [Ei|Ei]; [reflexivity|]. assert (Hlt : i < length (the_segments b)) by lia.
  unfold bind at 1, observe at 1. rewrite (seg_deref_pos (view_of u) b H i Hlt). fold (the_segments b). destruct (f _); [reflexivity|].
  unfold bind at 1, observe at 1. rewrite (seg_incr_pos (dbg E) (view_of u) b H i Hlt). reflexivity.
Qed.

Theorem erase_if_ok E f a : env_ok E -> forall rest kept u b fuel p, editable (dbg E) u b -> the_segments b = kept ++ rest ->
  rooted (uri_path b) = true \/ kept <> [] \/ (exists s r, rest = s :: r /\ f s = false) ->
  (forall l, with_segments l b = with_segments l a) -> position (dbg E) u (length kept) = Val p -> length rest < fuel ->
  exists u', left_with E u' a (kept ++ filter (fun s => negb (f s)) rest) /\
    (~ (dbg E = true /\ uri_query b = None /\ last_is f rest) ->
       host (u_pt u') = host (u_pt u) /\
       exists q, erase_if E f fuel p u = (Val q, u') /\ position (dbg E) u' (length (kept ++ filter (fun s => negb (f s)) rest)) = Val q) /\
    (dbg E = true /\ uri_query b = None /\ last_is f rest -> erase_if E f fuel p u = (Abort, u')).
Proof.
  intros HE. induction rest as [|s rest IH]; intros kept u b fuel p B Hs Hf Hw Hp Hl; (destruct fuel as [|fuel]; [cbn in Hl; lia|]); cbn [length] in Hl;
    (assert (Hk : length kept <= length (the_segments b)) by (rewrite Hs, app_length; lia));
    rewrite (position_of (dbg E) u b (length kept) B Hk) in Hp; injection Hp as <-;
    rewrite (erase_if_step E f fuel u b (length kept) B Hk).
  - rewrite app_nil_r in Hs. rewrite Hs, Nat.eqb_refl. exists u. cbn [filter]. unfold left_with. rewrite app_nil_r. rewrite <- Hw, <- Hs, with_segments_same, Hs.
    split; [auto|]. split; [intros _; split; [reflexivity|]|]. { exists (seg_pos (view_of u) b (length kept)). split; [reflexivity|]. apply position_of; assumption. }
    intros (_ & _ & front & x & K & _). destruct front; discriminate.
  - assert (Hlt : length kept < length (the_segments b)) by (rewrite Hs, app_length; cbn; lia).
    replace (length kept =? length (the_segments b)) with false by (symmetry; apply Nat.eqb_neq; lia).
    replace (nth (length kept) (the_segments b) []) with s by (rewrite Hs; symmetry; apply nth_middle').
    destruct (f s) eqn:Ef; cbn [filter negb]; rewrite Ef; cbn [negb].
    + assert (Hr : rooted (uri_path b) = true \/ 0 < length kept).
      { destruct Hf as [Hf|[Hf|(x & r & Hf & Hx)]]; [left; exact Hf|right; destruct kept; [congruence|cbn; lia]|]. injection Hf as -> ->. congruence. }
      assert (Hr1 : in_range (Erase (length kept)) b) by (split; cbn; [lia|exact Hr]).
      assert (P1 : proper (rooted (uri_path b)) (kept ++ rest)).
      { pose proof (proper_edit (Erase (length kept)) b Hr1 I) as P. cbn [list_edit] in P. rewrite Hs, erase_middle in P. exact P. }
      assert (F : fits E u (edit_need (Erase (length kept)) u b) = true) by (apply fits_enough; cbn; lia).
      pose proof (erase_at E u b (length kept) B Hk) as Ee. unfold bind. rewrite Ee.
      destruct (asserts_dec (dbg E) (Erase (length kept)) b) as [D|D].
      * destruct (edit_ok E u b (Erase (length kept)) HE B Hr1) as (_ & Q & _). destruct (Q I D) as [(_ & u' & Y & W)|(F' & _)]; [|congruence].
        destruct D as (D1 & _ & D2 & D3). cbn [edit_to until_assertion list_edit] in *. rewrite Hs, erase_middle in W. rewrite Hs, app_length in D2. cbn [length] in D2.
        destruct rest; [|cbn in D2; lia]. exists u'. rewrite Y. cbn [filter] in *. split.
        -- split; [rewrite <- Hw; exact W|]. rewrite <- Hw. apply with_segments_segments, P1.
        -- split; [|auto]. intros K. destruct K. split; [exact D1|]. split; [exact D3|]. exists [], s. auto.
      * destruct (edit_succeeds E u b (Erase (length kept)) HE B Hr1 I D F) as (q & u1 & Y & B1 & Ls & H1 & Q1). rewrite Y. cbn [list_edit returned] in *.
        rewrite Hs, erase_middle in *. set (b1 := with_segments (kept ++ rest) b) in *.
        destruct (IH kept u1 b1 fuel q B1 Ls) as (u' & W & K1 & K2).
        -- unfold b1. rewrite rooted_after by exact P1. destruct Hr as [Hr|Hr]; [auto|right; left; destruct kept; [cbn in Hr; lia|discriminate]].
        -- intros l. unfold b1. rewrite with_segments_twice by exact P1. apply Hw.
        -- exact Q1.
        -- lia.
        -- exists u'. split; [exact W|]. change (uri_query b1) with (uri_query b) in *.
           assert (Z : dbg E = true /\ uri_query b = None /\ last_is f (s :: rest) <-> dbg E = true /\ uri_query b = None /\ last_is f rest).
           { split; intros (G1 & G2 & G3); (split; [exact G1|]; split; [exact G2|]).
             - destruct rest as [|x rest]; [|exact (proj1 (last_is_cons f s x rest) G3)]. exfalso. apply D. split; [exact G1|]. split; [exact (fun K => K)|].
               split; [cbn [edit_to]; rewrite Hs, app_length; cbn; lia|exact G2].
             - destruct rest as [|x rest]; [destruct G3 as ([|? ?] & ? & G3 & _); discriminate|apply last_is_cons; exact G3]. }
           rewrite Z, <- H1. auto.
    + destruct (IH (kept ++ [s]) u b fuel (seg_pos (view_of u) b (S (length kept))) B) as (u' & W & K1 & K2).
      * rewrite Hs, <- app_assoc. reflexivity.
      * right. left. destruct kept; discriminate.
      * exact Hw.
      * rewrite app_length. cbn [length]. rewrite Nat.add_1_r. apply position_of; [exact B|lia].
      * lia.
      * rewrite <- !app_assoc in *. cbn [app] in *. exists u'. split; [exact W|].
        assert (Z : last_is f (s :: rest) <-> last_is f rest).
        { destruct rest as [|x rest]; [|apply last_is_cons]. split; intros (front & x & G1 & G2).
          - destruct front as [|? [|? ?]]; [injection G1 as ->; congruence|discriminate|discriminate].
          - destruct front; discriminate. }
        rewrite Z. auto.
Qed.

(** From [a] itself *)
Theorem erase_loop_from E u a i n p : env_ok E -> editable (dbg E) u a -> rooted (uri_path a) = true \/ 0 < i -> i + n <= length (the_segments a) ->
  position (dbg E) u i = Val p ->
  exists u', left_with E u' a (erase_range i (i + n) (the_segments a)) /\
    (~ (dbg E = true /\ 0 < n /\ at_end_without_query a (i + n)) -> host (u_pt u') = host (u_pt u) /\ exists q, erase_loop E n p u = (Val q, u') /\ position (dbg E) u' i = Val q) /\
    (dbg E = true /\ 0 < n /\ at_end_without_query a (i + n) -> erase_loop E n p u = (Abort, u')).
Proof. intros HE B Hr Hn Hp. exact (erase_loop_ok E a i HE n u a p B Hr Hn (fun ss => eq_refl) Hp). Qed.
Theorem insert_loop_from E u a i ss p : env_ok E -> editable (dbg E) u a -> rooted (uri_path a) = true \/ 0 < i -> i <= length (the_segments a) ->
  position (dbg E) u i = Val p -> ~ (dbg E = true /\ at_end_without_query a i) ->
  exists u' k, k <= length ss /\ left_with E u' a (insert_all i (map (canonical_encoding k_pchar) (firstn k ss)) (the_segments a)) /\ host (u_pt u') = host (u_pt u) /\
    ((k = length ss /\ exists q, insert_loop E p ss u = (Val q, u') /\ position (dbg E) u' (i + k) = Val q) \/
     (k < length ss /\ insert_loop E p ss u = (Exn bad_alloc, u') /\
      fits E u' (usize u' + (length (canonical_encoding k_pchar (nth k ss [])) + 1)) = false)).
Proof. intros HE B Hr Hn Hp Hq. exact (insert_loop_ok E a HE ss i u a p B Hr Hn (fun ss => eq_refl) Hp Hq). Qed.
Theorem erase_if_from E f u a fuel p : env_ok E -> editable (dbg E) u a ->
  rooted (uri_path a) = true \/ (exists s r, the_segments a = s :: r /\ f s = false) ->
  position (dbg E) u 0 = Val p -> length (the_segments a) < fuel ->
  let ss := filter (fun s => negb (f s)) (the_segments a) in
  exists u', left_with E u' a ss /\
    (~ (dbg E = true /\ uri_query a = None /\ last_is f (the_segments a)) ->
       host (u_pt u') = host (u_pt u) /\ exists q, erase_if E f fuel p u = (Val q, u') /\ position (dbg E) u' (length ss) = Val q) /\
    (dbg E = true /\ uri_query a = None /\ last_is f (the_segments a) -> erase_if E f fuel p u = (Abort, u')).
Proof. intros HE B Hr Hp Hl. exact (erase_if_ok E f a HE (the_segments a) [] u a fuel p B eq_refl ltac:(tauto) (fun ss => eq_refl) Hp Hl). Qed.
