(** * ProofsCostUrl: modifiers take linear time *)

From Coq Require Import Lia.
From Verif Require Import Base ModelChar ModelParts ModelParse ModelView ModelUrl ModelCost ModelCostIter ModelCostUrl SpecStore SpecUrl SpecCost ProofsCost ProofsCostIter.

(** ** Forgetting the count *)

Definition forgets {A} (m : C A) (p : U A) : Prop := forall u, fst (m u) = p u.
Lemma fg_bind A B (m : C A) (p : U A) (f : A -> C B) (g : A -> U B) : forgets m p -> (forall a, forgets (f a) (g a)) -> forgets (c_bind m f) (bind p g).
Proof.
  intros Hm Hf u. unfold c_bind, bind. rewrite <- Hm. destruct (m u) as [[[a|e| | |] u'] n]; cbn [fst]; try reflexivity.
  rewrite <- Hf. destruct (f a u') as [[o u''] n']. reflexivity.
Qed.
Lemma fg_pay A n (p : U A) : forgets (c_pay n p) p. Proof. intros u. unfold c_pay. destruct (p u). reflexivity. Qed.
Lemma fg_ret_bind A B n (a : A) (f : A -> C B) (p : U B) : forgets (f a) p -> forgets (c_bind (c_pay n (ret a)) f) p.
Proof. intros H u. rewrite <- H. unfold c_bind, c_pay, ret. destruct (f a u) as [[o u'] n']. reflexivity. Qed.
Lemma fg_paid A (k : K A) o : fst k = o -> forgets (c_paid k) (lift o). Proof. intros <- u. reflexivity. Qed.
Lemma fg_observe A (f : view -> K A) g : (forall v, fst (f v) = g v) -> forgets (c_observe f) (observe g).
Proof. intros H u. unfold c_observe, c_paid, observe. cbn [fst]. rewrite H. reflexivity. Qed.
Lemma fg_if A (b : bool) (m m' : C A) p p' : forgets m p -> forgets m' p' -> forgets (if b then m else m') (if b then p else p').
Proof. destruct b; auto. Qed.

Section Ops.
Variable E : env.
Create HintDb fg.
Ltac fg := repeat first
  [ progress (unfold c_ret, c_lift, c_throw, c_get_st, c_get_upt, c_set_upt, c_set_s, c_wr_str, c_wr, c_memmove, c_uassert, c_wr_enc, c_encoded_size, c_uparse, c_uhas_authority, c_uset_host_type)
  | apply fg_pay | solve [auto with fg nocore]
  | apply fg_ret_bind | (apply fg_bind; [|intros ?]) | apply fg_if | apply fg_paid | (apply fg_observe; intros ?)
  | match goal with |- forgets (match ?x with _ => _ end) _ => destruct x end
  | reflexivity ].

Lemma fg_reserve n : forgets (c_st_reserve E n) (st_reserve E n). Proof. intros u. unfold c_st_reserve. apply fg_pay. Qed.
Hint Resolve fg_reserve : fg.
Lemma fg_resize n : forgets (c_st_resize E n) (st_resize E n). Proof. unfold c_st_resize, st_resize. fg. Qed.
Hint Resolve fg_resize : fg.
Lemma fg_url_resize i n : forgets (c_url_resize E i n) (url_resize E i n). Proof. unfold c_url_resize, url_resize. cbv zeta. fg. Qed.
Lemma fg_url_resize2 i j n : forgets (c_url_resize2 E i j n) (url_resize2 E i j n). Proof. unfold c_url_resize2, url_resize2. cbv zeta. fg. Qed.
Lemma fg_split i n : forgets (c_url_split E i n) (url_split E i n). Proof. unfold c_url_split, url_split. fg. Qed.
Hint Resolve fg_url_resize fg_url_resize2 fg_split : fg.
Lemma fg_password : forgets (c_assert_password_at E) (assert_password_at E). Proof. unfold c_assert_password_at, assert_password_at. fg. Qed.
Lemma fg_slashes : forgets (c_assert_user_slashes E) (assert_user_slashes E). Proof. unfold c_assert_user_slashes, assert_user_slashes. fg. Qed.
Hint Resolve fg_password fg_slashes : fg.
Lemma fg_parse (k : K parts) o : fst k = o -> forgets (c_uparse k) (uparse o). Proof. apply fg_paid. Qed.


Ltac piece := apply fg_bind; [apply fg_parse; first [apply linear_url|apply linear_origin|apply (proj1 (linear_pieces (dbg E)))|apply (proj2 (linear_pieces (dbg E)))]|intros ?].
Lemma fg_set_encoded_url s : forgets (c_set_encoded_url E s) (set_encoded_url E s).
Proof. unfold c_set_encoded_url, set_encoded_url. apply fg_if; [fg|]. apply fg_bind; [apply fg_parse, linear_url|intros pt]. fg. Qed.
Lemma fg_origin s : forgets (c_set_encoded_origin E s) (set_encoded_origin E s).
Proof. unfold c_set_encoded_origin, set_encoded_origin. apply fg_if; [fg|]. apply fg_bind; [apply fg_parse, linear_origin|intros pt]. fg. Qed.
Ltac from_pieces := apply fg_parse; pose proof (linear_pieces (dbg E)) as KK; decompose [and] KK;
  match goal with H : takes_linear_time _ _ _ _ |- _ => apply H end.
Ltac go f g := unfold f, g; cbv zeta; fg.
Lemma fg_scheme s : forgets (c_set_scheme E s) (set_scheme E s).
Proof. unfold c_set_scheme, set_scheme. apply fg_if; [fg|]. apply fg_bind; [from_pieces|intros pt]. fg. Qed.
Lemma fg_authority s : forgets (c_set_encoded_authority E s) (set_encoded_authority E s).
Proof. unfold c_set_encoded_authority, set_encoded_authority. apply fg_if; [fg|]. apply fg_bind; [from_pieces|intros pt]. fg. Qed.
Lemma fg_userinfo s : forgets (c_set_encoded_userinfo E s) (set_encoded_userinfo E s).
Proof. unfold c_set_encoded_userinfo, set_encoded_userinfo. apply fg_if; [fg|]. apply fg_bind; [from_pieces|intros pt]. fg. Qed.
Hint Resolve fg_userinfo : fg.
Lemma fg_userinfo_part s : forgets (c_set_userinfo_part E s) (set_userinfo_part E s). Proof. go c_set_userinfo_part set_userinfo_part. Qed.
Lemma fg_user s : forgets (c_set_user E s) (set_user E s). Proof. go c_set_user set_user. Qed.
Hint Resolve fg_user : fg.
Lemma fg_encoded_user s : forgets (c_set_encoded_user E s) (set_encoded_user E s). Proof. go c_set_encoded_user set_encoded_user. Qed.
Lemma fg_set_password s : forgets (c_set_password E s) (set_password E s). Proof. go c_set_password set_password. Qed.
Hint Resolve fg_set_password : fg.
Lemma fg_encoded_password s : forgets (c_set_encoded_password E s) (set_encoded_password E s). Proof. go c_set_encoded_password set_encoded_password. Qed.
Hint Resolve fg_encoded_password : fg.
Lemma fg_password_part s : forgets (c_set_password_part E s) (set_password_part E s). Proof. go c_set_password_part set_password_part. Qed.
Lemma fg_store_host w t n : (forall i, forgets (w i) (wr_str i t)) -> forgets (c_store_host E w n) (store_host E t n).
Proof. intros H. go c_store_host store_host. Qed.
Lemma fg_host s : forgets (c_set_host E s) (set_host E s).
Proof.
  unfold c_set_host, set_host. apply fg_if; [fg|]. apply fg_bind; [from_pieces|intros pt]. apply fg_bind; [fg|intros _].
  apply fg_bind; [|intros _; fg]. apply fg_if; [apply fg_store_host; intros i; apply fg_pay|]. apply fg_ret_bind. apply fg_store_host. intros i. apply fg_pay.
Qed.
Hint Resolve fg_host : fg.
Lemma fg_encoded_host s : forgets (c_set_encoded_host E s) (set_encoded_host E s).
Proof.
  unfold c_set_encoded_host, set_encoded_host. apply fg_if; [fg|]. apply fg_bind; [from_pieces|intros pt].
  apply fg_bind; [|intros _; fg]. apply fg_store_host. intros i. apply fg_pay.
Qed.
Lemma fg_port s : forgets (c_set_port E s) (set_port E s).
Proof. unfold c_set_port, set_port. apply fg_if; [fg|]. apply fg_bind; [from_pieces|intros pt]. fg. Qed.
Hint Resolve fg_port : fg.
Lemma fg_port_n n : forgets (c_set_port_n E n) (set_port_n E n). Proof. go c_set_port_n set_port_n. Qed.
Lemma fg_port_part s : forgets (c_set_port_part E s) (set_port_part E s). Proof. go c_set_port_part set_port_part. Qed.
Lemma fg_path s : forgets (c_set_encoded_path E s) (set_encoded_path E s).
Proof.
  unfold c_set_encoded_path, set_encoded_path. apply fg_if; [fg|]. apply fg_bind; [fg|intros a]. apply fg_bind; [fg|intros pt]. apply fg_bind; [|intros ?; fg].
  destruct a; [from_pieces|]. destruct (front_is s "/"); [from_pieces|]. destruct (_ =? _); from_pieces.
Qed.
Lemma fg_query s : forgets (c_set_query E s) (set_query E s). Proof. go c_set_query set_query. Qed.
Lemma fg_encoded_query s : forgets (c_set_encoded_query E s) (set_encoded_query E s). Proof. go c_set_encoded_query set_encoded_query. Qed.
Lemma fg_query_part s : forgets (c_set_query_part E s) (set_query_part E s). Proof. go c_set_query_part set_query_part. Qed.
Lemma fg_fragment s : forgets (c_set_fragment E s) (set_fragment E s). Proof. go c_set_fragment set_fragment. Qed.
Lemma fg_encoded_fragment s : forgets (c_set_encoded_fragment E s) (set_encoded_fragment E s). Proof. go c_set_encoded_fragment set_encoded_fragment. Qed.
Lemma fg_fragment_part s : forgets (c_set_fragment_part E s) (set_fragment_part E s). Proof. go c_set_fragment_part set_fragment_part. Qed.
Lemma fg_normalize_loop n : forall p, forgets (c_normalize_loop n p) (normalize_loop n p).
Proof. induction n as [|n IH]; intros p; cbn [c_normalize_loop normalize_loop]; fg. Qed.
Hint Resolve fg_normalize_loop : fg.
Lemma fg_normalize : forgets (c_normalize E) (normalize E).
Proof. unfold c_normalize, normalize. go c_normalize_scheme normalize_scheme. Qed.
Hint Resolve fg_set_encoded_url fg_origin fg_scheme fg_authority fg_userinfo_part fg_encoded_user fg_password_part fg_encoded_host
  fg_port_n fg_port_part fg_path fg_query fg_encoded_query fg_query_part fg_fragment fg_encoded_fragment fg_fragment_part fg_normalize : fg.
Lemma fg_run o : forgets (c_run E o) (run E o).
Proof. destruct o; cbn [c_run run]; auto with fg nocore. Qed.

(** ** Forgetting the count in segment edits *)

Lemma fg_upt i n : forgets (c_upt_resize i n) (upt_resize i n). Proof. go c_upt_resize upt_resize. Qed.
Lemma fg_nul : forgets (c_assert_nul_at_end E) (assert_nul_at_end E). Proof. go c_assert_nul_at_end assert_nul_at_end. Qed.
Hint Resolve fg_upt fg_nul : fg.
Lemma fg_parse_base d o : forgets (c_observe (fun v => k_seg_parse_base d v o)) (observe (fun v => seg_parse_base d v o)).
Proof. apply fg_observe. intros v. apply e_parse_to. Qed.
Lemma fg_incr d p : forgets (c_observe (fun v => k_seg_incr d v (k_seg_parse_base d v) p)) (observe (fun v => seg_incr d v (seg_parse_base d v) p)).
Proof. apply fg_observe. intros v. apply e_incr. intros o. apply e_parse_to. Qed.
Hint Resolve fg_parse_base fg_incr : fg.
Lemma fg_erase2 p q : forgets (c_seg_erase2 E p q) (seg_erase2 E p q). Proof. go c_seg_erase2 seg_erase2. Qed.
Hint Resolve fg_erase2 : fg.
Lemma fg_erase p : forgets (c_seg_erase E p) (seg_erase E p). Proof. go c_seg_erase seg_erase. Qed.
Hint Resolve fg_erase : fg.
Lemma fg_raw p w t n : (forall i, forgets (w i) (wr_str i t)) -> forgets (c_seg_insert_raw E p w n) (seg_insert_raw E p t n).
Proof. intros H. go c_seg_insert_raw seg_insert_raw. Qed.
Lemma fg_insert_encoded_impl p s : forgets (c_seg_insert_encoded_impl E p s) (seg_insert_encoded_impl E p s).
Proof. unfold c_seg_insert_encoded_impl, seg_insert_encoded_impl. apply fg_bind; [apply fg_pay|intros _]. apply fg_raw. intros i. apply fg_pay. Qed.
Lemma fg_insert_impl p s n : forgets (c_seg_insert_impl E p s n) (seg_insert_impl E p s n).
Proof. unfold c_seg_insert_impl, seg_insert_impl. apply fg_ret_bind. apply fg_bind; [apply fg_pay|intros _]. apply fg_raw. intros i. apply fg_pay. Qed.
Lemma fg_reserve2 n0 n : forgets (c_seg_reserve E n0 n) (seg_reserve E n0 n). Proof. go c_seg_reserve seg_reserve. Qed.
Hint Resolve fg_insert_encoded_impl fg_insert_impl fg_reserve2 : fg.
Lemma fg_insert_encoded p s : forgets (c_seg_insert_encoded E p s) (seg_insert_encoded E p s). Proof. go c_seg_insert_encoded seg_insert_encoded. Qed.
Lemma fg_insert p s : forgets (c_seg_insert E p s) (seg_insert E p s). Proof. go c_seg_insert seg_insert. Qed.
Lemma fg_replace_encoded p s : forgets (c_seg_replace_encoded E p s) (seg_replace_encoded E p s). Proof. go c_seg_replace_encoded seg_replace_encoded. Qed.
Lemma fg_replace p s : forgets (c_seg_replace E p s) (seg_replace E p s). Proof. go c_seg_replace seg_replace. Qed.
End Ops.

(** ** Bounds *)

(** [m] takes at most [b] steps from states satisfying [P]; if it returns, [R] holds. *)
Definition tri {A} (P : url -> Prop) (b : nat) (m : C A) (R : A -> url -> Prop) : Prop :=
  forall u, P u -> snd (m u) <= b /\ forall a, fst (fst (m u)) = Val a -> R a (snd (fst (m u))).
Definition anyway {A} : A -> url -> Prop := fun _ _ => True.
Definition flat {A} (b : nat) (m : C A) : Prop := forall u, snd (m u) <= b.

Lemma tri_bind A B P b b1 (m : C A) (f : A -> C B) R1 R : tri P b1 m R1 -> b1 <= b -> (forall a, tri (R1 a) (b - b1) (f a) R) -> tri P b (c_bind m f) R.
Proof.
  intros Hm Hb Hf u Hu. destruct (Hm u Hu) as (H1 & H2). unfold c_bind. destruct (m u) as [[[a|e| | |] u'] n]; cbn [fst snd] in *.
  2-5: (split; [lia|discriminate]).
  destruct (Hf a u' (H2 a eq_refl)) as (H3 & H4). destruct (f a u') as [[o u''] n']. cbn [fst snd] in *. split; [lia|exact H4].
Qed.
Lemma flat_bind A B b b1 (m : C A) (f : A -> C B) : flat b1 m -> b1 <= b -> (forall a, flat (b - b1) (f a)) -> flat b (c_bind m f).
Proof.
  intros Hm Hb Hf u. specialize (Hm u). unfold c_bind. destruct (m u) as [[[a|e| | |] u'] n]; cbn [fst snd] in *; try lia.
  specialize (Hf a u'). destruct (f a u') as [[o u''] n']. cbn [snd] in *. lia.
Qed.
Lemma flat_tri A P b (m : C A) : flat b m -> tri P b m anyway. Proof. intros H u _. split; [apply H|constructor]. Qed.
Lemma tri_weak A P b b' (m : C A) R : tri P b m R -> b <= b' -> tri P b' m R.
Proof. intros H Hb u Hu. destruct (H u Hu). split; [lia|assumption]. Qed.
Lemma tri_tail A P b b' (m : C A) R : tri P b m R -> b <= b' -> tri P b' m anyway.
Proof. intros H Hb u Hu. destruct (H u Hu). split; [lia|constructor]. Qed.
Lemma flat_weak A b b' (m : C A) : flat b m -> b <= b' -> flat b' m. Proof. intros H Hb u. specialize (H u). lia. Qed.
Lemma flat_pay A n (p : U A) : flat n (c_pay n p). Proof. intros u. apply le_n. Qed.
Lemma flat_paid A (k : K A) : flat (snd k) (c_paid k). Proof. intros u. apply le_n. Qed.
Lemma flat_if A b (x : bool) (m m' : C A) : flat b m -> flat b m' -> flat b (if x then m else m'). Proof. destruct x; auto. Qed.
Lemma tri_if A P b (x : bool) (m m' : C A) R : tri P b m R -> tri P b m' R -> tri P b (if x then m else m') R. Proof. destruct x; auto. Qed.

Definition below (N : nat) (pt : parts) : Prop := Forall (fun o => o <= N) (offset pt).
Definition ok (N : nat) (u : url) : Prop := below N (u_pt u) /\ st_size (u_st u) <= st_cap (u_st u).
Lemma below_off N pt i : below N pt -> off pt i <= N.
Proof.
  unfold below, off. intros H. destruct (Nat.lt_ge_cases i (length (offset pt))) as [K|K].
  - rewrite Forall_forall in H. apply H, nth_In, K.
  - rewrite nth_overflow by exact K. lia.
Qed.
Lemma below_len N pt i : below N pt -> plength pt i <= N. Proof. intros H. unfold plength. pose proof (below_off N pt (i + 1) H). lia. Qed.
Lemma below_len2 N pt i j : below N pt -> plength2 pt i j <= N. Proof. intros H. unfold plength2. pose proof (below_off N pt j H). lia. Qed.
Lemma below_more N N' pt : below N pt -> N <= N' -> below N' pt. Proof. intros H L. eapply Forall_impl; [|exact H]. cbn. lia. Qed.
Lemma below_map N N' f g pt i j ns np h : below N pt -> N <= N' -> (forall o, o <= N -> f o <= N') -> Forall (fun o => o <= N') g ->
  below N' (mk_parts (firstn i (offset pt) ++ g ++ map f (skipn j (offset pt))) ns np h).
Proof.
  intros H L Hf Hg. unfold below in *. cbn [offset]. rewrite !Forall_app. split; [|split; [exact Hg|]].
  - rewrite <- (firstn_skipn i (offset pt)), Forall_app in H. eapply Forall_impl; [|exact (proj1 H)]. cbn. lia.
  - apply Forall_map. rewrite <- (firstn_skipn j (offset pt)), Forall_app in H. eapply Forall_impl; [|exact (proj2 H)]. cbn. exact Hf.
Qed.

Lemma tri_get_upt A N b (f : parts -> C A) R : 12 <= b -> (forall pt, below N pt -> tri (ok N) (b - 12) (f pt) R) -> tri (ok N) b (c_bind c_get_upt f) R.
Proof.
  intros Hb H u Hu. destruct (H (u_pt u) (proj1 Hu) u Hu) as (H1 & H2). unfold c_bind, c_get_upt, c_pay, get_upt, gets.
  destruct (f (u_pt u) u) as [[o u'] n]. cbn [fst snd] in *. split; [lia|exact H2].
Qed.
Lemma tri_get_st A (P : url -> Prop) b (f : url -> C A) R : 16 <= b -> (forall u, P u -> tri P (b - 16) (f u) R) -> tri P b (c_bind c_get_st f) R.
Proof.
  intros Hb H u Hu. destruct (H u Hu u Hu) as (H1 & H2). unfold c_bind, c_get_st, c_pay, get_st.
  destruct (f u u) as [[o u'] n]. cbn [fst snd] in *. split; [lia|exact H2].
Qed.
Lemma tri_paid A P (k : K A) : tri P (snd k) (c_paid k) (fun _ => P). Proof. intros u H. split; [apply le_n|intros a _; exact H]. Qed.
Lemma tri_keep A (P : url -> Prop) n (p : U A) : (forall u, P u -> P (snd (p u))) -> tri P n (c_pay n p) (fun _ => P).
Proof. intros H u Hu. unfold c_pay. cbn [fst snd]. split; [apply le_n|intros a _; apply H, Hu]. Qed.
Lemma tri_ret A (P : url -> Prop) n (a : A) : tri P n (c_pay n (ret a)) (fun x u => P u /\ x = a).
Proof. intros u H. split; [apply le_n|]. cbn. intros x Hx. injection Hx as <-. split; [exact H|reflexivity]. Qed.
Lemma tri_ret_bind A B (P : url -> Prop) b n (a : A) (f : A -> C B) R : n <= b -> tri P (b - n) (f a) R -> tri P b (c_bind (c_pay n (ret a)) f) R.
Proof.
  intros Hb H u Hu. destruct (H u Hu) as (H1 & H2). unfold c_bind, c_pay, ret. destruct (f a u) as [[o u'] k]. cbn [fst snd] in *. split; [lia|exact H2].
Qed.
Lemma tri_observe A N b (f : view -> K A) : (forall v, below N (v_pt v) -> snd (f v) <= b) -> tri (ok N) b (c_observe f) (fun _ => ok N).
Proof. intros H u Hu. unfold c_observe, c_paid. cbn [fst snd]. split; [apply H, Hu|intros a _; exact Hu]. Qed.

Lemma ok_buf N u b : ok N u -> ok N (set_buf u b). Proof. intros H. exact H. Qed.
Lemma keep_wr_str N i s : tri (ok N) (1 + 2 * length s) (c_wr_str i s) (fun _ => ok N).
Proof. apply tri_keep. intros u H. unfold wr_str. destruct (live_buf u); [|exact H]. destruct (_ <=? _); exact H. Qed.
Lemma keep_wr N i c : tri (ok N) 1 (c_wr i c) (fun _ => ok N).
Proof. apply tri_keep. intros u H. unfold wr, wr_str. destruct (live_buf u); [|exact H]. destruct (_ <=? _); exact H. Qed.
Lemma keep_memmove N i j n : tri (ok N) (1 + 2 * n) (c_memmove i j n) (fun _ => ok N).
Proof. apply tri_keep. intros u H. unfold memmove. destruct (live_buf u); [|exact H]. destruct (_ && _); exact H. Qed.
Lemma keep_set_upt N N' pt : below N' pt -> tri (ok N) 36 (c_set_upt pt) (fun _ => ok N').
Proof. intros H u (H1 & H2). split; [apply le_n|]. intros _ _. split; [exact H|exact H2]. Qed.
Lemma keep_set_s N p : tri (ok N) 1 (c_set_s p) (fun _ => ok N). Proof. apply tri_keep. intros u H. exact H. Qed.

Lemma encode_cost_le e s : encode_cost e s <= 10 * length s + 1.
Proof. induction s as [|c s IH]; cbn [encode_cost length]; [lia|]. destruct (is_special e c); lia. Qed.
Lemma encode_cost_ge e s : 1 + length s <= encode_cost e s.
Proof. induction s as [|c s IH]; cbn [encode_cost length]; [lia|]. destruct (is_special e c); lia. Qed.

Section Bounds.
Variable E : env.
Hypothesis HE : env_ok E.

Lemma keep_uassert P b : tri P 1 (c_uassert E b) (fun _ => P).
Proof. apply tri_keep. intros u H. exact H. Qed.

Lemma keep_reserve0 N n : tri (ok N) (16 + 2 * n) (c_st_reserve E n) (fun _ u => ok N u /\ n <= st_cap (u_st u)).
Proof.
  intros u (H1 & H2). unfold c_st_reserve, c_pay, st_reserve. destruct (n <=? st_cap (u_st u)) eqn:E1; cbn [fst snd].
  - apply Nat.leb_le in E1. split; [lia|]. intros a _. repeat split; assumption.
  - apply Nat.leb_gt in E1. split; [lia|]. cbv zeta. destruct (negb (alloc_ok E _ _)) eqn:E2; [discriminate|]. apply negb_false_iff in E2.
    apply HE in E2. set (cap := if _ <? _ then _ else _) in *.
    assert (Hc : n <= cap /\ st_cap (u_st u) <= cap).
    { unfold cap in *. destruct (st_cap (u_st u) <? max_size E - st_cap (u_st u)) eqn:E3; [|lia].
      destruct (2 * st_cap (u_st u) <? n) eqn:E4; [lia|]. apply Nat.ltb_ge in E4. lia. }
    destruct (st_buf (u_st u)); [destruct (_ && _)|]; cbn [fst snd]; intros a Ha; try discriminate; unfold ok; cbn [u_st u_pt st_size st_cap]; repeat split; try exact H1; lia.
Qed.
End Bounds.
