(** * ProofsCostUrlBounds: the bounds for the modifiers *)

From Coq Require Import Lia.
From Verif Require Import Base ModelChar ModelParts ModelParse ModelView ModelUrl ModelCost ModelCostIter ModelCostUrl SpecStore SpecUrl SpecCost
  SpecMachine ProofsMachine ProofsCost ProofsCostIter ProofsCostUrl.

Lemma encoded_le e s : small_table e = true -> encoded_size e s <= 3 * length s.
Proof. exact (encoded_size_le (mk_env true 2 0 (fun _ _ => false)) 0 (le_n _) e s). Qed.

Section Bounds.
Variable E : env.
Hypothesis HE : env_ok E.

Lemma keep_reserve N n : tri (ok N) (16 + 2 * n) (c_st_reserve E n) (fun _ u => ok N u /\ n <= st_cap (u_st u)).
Proof. apply keep_reserve0, HE. Qed.

Lemma keep_resize N n : tri (ok N) (19 + 2 * n) (c_st_resize E n) (fun _ => ok N).
Proof.
  unfold c_st_resize. eapply tri_bind; [apply keep_reserve|lia|]. intros [p|].
  - intros u (H & L). unfold c_pay. cbn [fst snd]. split; [lia|]. destruct (st_buf (u_st u)); [|discriminate]. destruct (n <? length l); [|discriminate].
    intros a _. split; [exact (proj1 H)|]. cbn [snd u_st st_size st_cap]. exact L.
  - intros u (H & L). split; [cbn; lia|]. intros a _. exact H.
Qed.

(** [m] keeps the offsets below [N] and takes at most [b] steps. *)
Ltac len := match goal with
  | H : below ?N ?pt |- _ => progress (repeat match goal with
     | |- context [off pt ?i] => lazymatch goal with K : off pt i <= N |- _ => fail | _ => pose proof (below_off N pt i H) end
     | |- context [plength pt ?i] => lazymatch goal with K : plength pt i <= N |- _ => fail | _ => pose proof (below_len N pt i H) end
     | |- context [plength2 pt ?i ?j] => lazymatch goal with K : plength2 pt i j <= N |- _ => fail | _ => pose proof (below_len2 N pt i j H) end
     end) end.
Ltac cost := repeat len; cbn [Nat.sub]; lia.

Lemma keep_url_resize N i n : tri (ok N) (4 * N + 2 * n + 80) (c_url_resize E i n) (fun _ => ok (N + n)).
Proof.
  unfold c_url_resize. apply tri_get_st; [lia|]. intros u (H & Hs). cbv zeta. unfold usize. set (pt := u_pt u) in *.
  pose proof (below_len N pt i H) as H1. pose proof (below_off N pt (i + 1) H) as H2. pose proof (below_off N pt id_end H) as H3.
  assert (B : forall R : url -> Prop, (forall v, ok N v -> R v) -> forall x b, tri (ok N) b (c_ret (A:=nat) x) (fun _ => R)).
  { intros R HR x b v Hv. split; [cbn; lia|]. intros a _. apply HR, Hv. }
  assert (M : forall v, ok N v -> ok (N + n) v) by (intros v (A1 & A2); split; [eapply below_more; [exact A1|lia]|exact A2]).
  apply tri_if; [apply B, M|]. apply tri_if; [|apply tri_if; [intros v Hv; split; [cbn; lia|discriminate]|]].
  - eapply tri_bind; [apply keep_memmove|lia|intros ?; cbv beta]. eapply tri_bind; [apply (keep_set_upt _ (N + n))|lia|intros ?; cbv beta].
    + apply (below_map N _ _ []); [exact H|lia| |constructor]. intros o Ho. lia.
    + intros v Hv. split; [cbn; lia|]. intros ? _. exact Hv.
  - eapply tri_bind; [apply keep_resize|lia|intros p; cbv beta]. eapply tri_bind; [apply keep_set_s|lia|intros ?; cbv beta]. eapply tri_bind; [apply keep_memmove|lia|intros ?; cbv beta].
    eapply tri_bind; [apply (keep_set_upt _ (N + n))|lia|intros ?; cbv beta].
    + apply (below_map N _ _ []); [exact H|lia| |constructor]. intros o Ho. lia.
    + intros v Hv. split; [cbn; lia|]. intros ? _. exact Hv.
Qed.
Lemma keep_url_resize2 N i j n : tri (ok N) (4 * N + 2 * n + 80) (c_url_resize2 E i j n) (fun _ => ok (N + n)).
Proof.
  unfold c_url_resize2. apply tri_get_st; [lia|]. intros u (H & Hs). cbv zeta. unfold usize. set (pt := u_pt u) in *.
  pose proof (below_len2 N pt i j H) as H1. pose proof (below_off N pt j H) as H2. pose proof (below_off N pt id_end H) as H3.
  assert (B : forall R : url -> Prop, (forall v, ok N v -> R v) -> forall x b, tri (ok N) b (c_ret (A:=nat) x) (fun _ => R)).
  { intros R HR x b v Hv. split; [cbn; lia|]. intros a _. apply HR, Hv. }
  assert (M : forall v, ok N v -> ok (N + n) v) by (intros v (A1 & A2); split; [eapply below_more; [exact A1|lia]|exact A2]).
  assert (Rp : forall x k, x <= N + n -> Forall (fun o => o <= N + n) (repeat x k)) by (intros x k Hx; apply Forall_forall; intros y Hy; apply repeat_spec in Hy; lia).
  apply tri_if; [apply B, M|]. apply tri_if; [|apply tri_if; [intros v Hv; split; [cbn; lia|discriminate]|]].
  - eapply tri_bind; [apply keep_memmove|lia|intros ?; cbv beta]. eapply tri_bind; [apply (keep_set_upt _ (N + n))|lia|intros ?; cbv beta].
    + apply (below_map N); [exact H|lia| |apply Rp; lia]. intros o Ho. lia.
    + intros v Hv. split; [cbn; lia|]. intros ? _. exact Hv.
  - eapply tri_bind; [apply keep_resize|lia|intros p; cbv beta]. eapply tri_bind; [apply keep_set_s|lia|intros ?; cbv beta]. eapply tri_bind; [apply keep_memmove|lia|intros ?; cbv beta].
    eapply tri_bind; [apply (keep_set_upt _ (N + n))|lia|intros ?; cbv beta].
    + apply (below_map N); [exact H|lia| |apply Rp; lia]. intros o Ho. lia.
    + intros v Hv. split; [cbn; lia|]. intros ? _. exact Hv.
Qed.
Lemma keep_split N i n : tri (ok N) 49 (c_url_split E i n) (fun _ => ok (N + n)).
Proof.
  unfold c_url_split. apply tri_get_upt; [lia|]. intros pt H. eapply tri_bind; [apply keep_uassert|lia|intros ?; cbv beta]. eapply tri_weak; [apply keep_set_upt|cbn; lia].
  unfold psplit. pose proof (below_off N pt i H). 
  pose proof (below_map N (N + n) (fun o => o) [off pt i + n] pt (i + 1) (i + 2) (nseg pt) (nparam pt) (host pt)) as K. rewrite map_id in K.
  apply K; [exact H|lia|intros; lia|]. constructor; [lia|constructor].
Qed.
Lemma flat_split i n : flat 49 (c_url_split E i n).
Proof.
  unfold c_url_split. eapply flat_bind; [apply flat_pay|lia|intros pt; cbv beta]. eapply flat_bind; [apply flat_pay|lia|intros ?; cbv beta]. eapply flat_weak; [apply flat_pay|cbn; lia].
Qed.

Lemma flat_enc e i s : flat (10 * length s + 1) (c_wr_enc e i s). Proof. eapply flat_weak; [apply flat_pay|apply encode_cost_le]. Qed.
Lemma flat_validate e s : flat (4 * length s + 8) (c_paid (t_validate e s)). Proof. eapply flat_weak; [apply flat_paid|apply linear_validate]. Qed.
Lemma keep_validate P e s : tri P (4 * length s + 8) (c_paid (t_validate e s)) (fun _ => P). Proof. eapply tri_weak; [apply tri_paid|apply linear_validate]. Qed.
Lemma keep_parse P f (t : str -> K parts) a b s : takes_linear_time f t a b -> tri P (a * length s + b) (c_uparse (t s)) (fun _ => P).
Proof. intros H. eapply tri_weak; [apply tri_paid|apply H]. Qed.
Lemma keep_look N n id : tri (ok N) n (c_observe (fun v => paid n (vget v id))) (fun _ => ok N). Proof. apply tri_observe. intros; cbn; lia. Qed.
Lemma keep_has P : tri P 3 c_uhas_authority (fun _ => P). Proof. apply tri_keep. intros u H. exact H. Qed.
Lemma keep_ret A (P : url -> Prop) (a : A) : tri P 0 (c_ret a) (fun _ => P). Proof. apply tri_keep. intros u H. exact H. Qed.

Ltac fstep := first [apply flat_split|apply flat_enc|apply flat_pay|apply flat_paid].
Ltac flt := apply flat_tri; repeat first
  [ apply flat_if | (eapply flat_bind; [fstep|cost|intros ?]) | (eapply flat_weak; [fstep|cost]) ].
Ltac kstep := first [apply keep_uassert|apply keep_url_resize|apply keep_url_resize2|apply keep_validate|apply keep_has|apply keep_look|apply keep_ret
  |apply keep_wr|apply keep_wr_str|apply keep_set_s|apply keep_resize|apply keep_split].
Ltac st := repeat first
  [ (apply tri_get_upt; [cost|intros ? ?]) | (apply tri_get_st; [cost|intros ? ?]) | apply tri_if
  | (apply tri_ret_bind; [cost|])
  | (eapply tri_bind; [kstep|cost|intros ?; cbv beta])
  | (eapply tri_tail; [kstep|cost]) | solve [flt] ].
Ltac parse H := eapply tri_bind; [eapply keep_parse, H|cost|intros ?; cbv beta].
Ltac pieces := pose proof (linear_pieces (dbg E)) as (Lsch & Laut & Lui & Lhn & Lph & Lport & Lab & Labs & Lns & Lrl).

(** Bound for a setter given a text of [l] characters. *)
Definition bound (N l : nat) : nat := 8 * N + 40 * l + 1600.
Ltac start f := unfold f, bound; cbv zeta.

Lemma b_url N s : tri (ok N) (bound N (length s)) (c_set_encoded_url E s) anyway.
Proof.
  start c_set_encoded_url. apply tri_if; [apply tri_get_st; [cost|intros ? ?]; destruct (u_s u); st|]. parse (linear_url (dbg E)).
  eapply tri_bind; [kstep|cost|intros ?; cbv beta]. flt.
Qed.
Lemma b_origin N s : tri (ok N) (bound N (length s)) (c_set_encoded_origin E s) anyway.
Proof.
  start c_set_encoded_origin. apply tri_if; [st|]. parse (linear_origin (dbg E)).
  eapply tri_bind; [kstep|cost|intros ?; cbv beta]. flt.
Qed.
Lemma b_scheme N s : tri (ok N) (bound N (length s)) (c_set_scheme E s) anyway.
Proof. start c_set_scheme. pieces. apply tri_if; [st|]. parse Lsch. st. Qed.
Lemma b_authority N s : tri (ok N) (bound N (length s)) (c_set_encoded_authority E s) anyway.
Proof. start c_set_encoded_authority. pieces. apply tri_if; [st|]. parse Laut. eapply tri_bind; [kstep|cost|intros ?; cbv beta]. flt. Qed.
Lemma b_userinfo N s : tri (ok N) (bound N (length s)) (c_set_encoded_userinfo E s) anyway.
Proof. start c_set_encoded_userinfo. pieces. apply tri_if; [st|]. parse Lui. eapply tri_bind; [kstep|cost|intros ?; cbv beta]. flt. Qed.
Lemma b_userinfo_part N s : tri (ok N) (bound N (length s)) (c_set_userinfo_part E s) anyway.
Proof.
  start c_set_userinfo_part. apply tri_if; [apply b_userinfo|]. apply tri_if; [flt|]. eapply tri_weak; [apply b_userinfo|].
  unfold bound. rewrite firstn_length. lia.
Qed.

Lemma keep_pass N : tri (ok N) 19 (c_assert_password_at E) (fun _ => ok N).
Proof.
  unfold c_assert_password_at. apply tri_get_st; [lia|intros ? ?]. apply tri_if; [|eapply tri_weak; [apply keep_ret|cbn; lia]].
  eapply tri_bind; [kstep|cost|intros ?; cbv beta]. eapply tri_weak; [kstep|cbn; lia].
Qed.
Lemma keep_slashes N : tri (ok N) 5 (c_assert_user_slashes E) (fun _ => ok N).
Proof.
  unfold c_assert_user_slashes. apply tri_if; [|eapply tri_weak; [apply keep_ret|cbn; lia]].
  do 3 (eapply tri_bind; [kstep|cost|intros ?; cbv beta]). eapply tri_weak; [kstep|cbn; lia].
Qed.
Ltac enc e s := pose proof (encoded_le e s eq_refl).
Ltac st2 := repeat first [progress st | (eapply tri_bind; [first [apply keep_pass|apply keep_slashes]|cost|intros ?; cbv beta])].

(** (without parsing, cheaper) *)
Definition bound0 (N l : nat) : nat := 4 * N + 20 * l + 400.
Lemma b_user0 N s : tri (ok N) (bound0 N (length s)) (c_set_user E s) anyway.
Proof. unfold c_set_user, bound0. cbv zeta. enc userinfo_nc_pct_set s. st2. Qed.
Lemma b_encoded_user N s : tri (ok N) (bound N (length s)) (c_set_encoded_user E s) anyway.
Proof. start c_set_encoded_user. apply tri_if; [eapply tri_weak; [apply b_user0|unfold bound0; lia]|]. st2. Qed.
Lemma b_password0 N s : tri (ok N) (bound0 N (length s)) (c_set_password E s) anyway.
Proof. unfold c_set_password, bound0. cbv zeta. enc userinfo_pct_set s. st2. Qed.
Lemma b_encoded_password0 N s : tri (ok N) (bound0 N (length s)) (c_set_encoded_password E s) anyway.
Proof. unfold c_set_encoded_password. cbv zeta. apply tri_if; [apply b_password0|]. unfold bound0. st2. Qed.
Lemma b_password_part N s : tri (ok N) (bound N (length s)) (c_set_password_part E s) anyway.
Proof.
  start c_set_password_part. apply tri_if; [eapply tri_weak; [apply b_password0|unfold bound0; lia]|].
  assert (L1 : length (skipn 1 s) <= length s) by (rewrite skipn_length; lia).
  apply tri_if; [|eapply tri_weak; [apply b_encoded_password0|unfold bound0; lia]].
  apply tri_if; [flt|]. apply tri_get_upt; [cost|intros ? ?]. apply tri_if; [st|].
  do 6 (eapply tri_bind; [kstep|cost|intros ?; cbv beta]). eapply tri_weak; [apply b_encoded_password0|unfold bound0; cost].
Qed.
Lemma b_store N w n b : (forall i, flat b (w i)) -> tri (ok N) (4 * N + 2 * n + 190 + b) (c_store_host E w n) anyway.
Proof.
  intros H. unfold c_store_host. eapply tri_bind; [kstep|cost|intros ?; cbv beta]. apply tri_if.
  - do 5 (eapply tri_bind; [kstep|cost|intros ?; cbv beta]). apply flat_tri. eapply flat_weak; [apply H|cost].
  - eapply tri_bind; [kstep|cost|intros ?; cbv beta]. apply flat_tri. eapply flat_weak; [apply H|cost].
Qed.
Lemma b_host N s : tri (ok N) (bound N (length s)) (c_set_host E s) anyway.
Proof.
  start c_set_host. pieces. enc reg_name_pct_set s. apply tri_if.
  - apply tri_get_upt; [cost|intros ? ?]. apply tri_if; [|st]. eapply (tri_bind _ _ _ _ 3 _ _ (fun _ => ok N)); [|cost|intros ?; cbv beta; st].
    apply tri_if; [|eapply tri_weak; [apply keep_ret|lia]]. eapply tri_bind; [kstep|cost|intros ?; cbv beta]. eapply tri_weak; [kstep|cbn; lia].
  - parse Lph. eapply tri_bind; [kstep|cost|intros ?; cbv beta]. eapply (tri_bind _ _ _ _ (4 * N + 20 * length s + 250)); [|cost|intros ?; cbv beta; flt].
    apply tri_if; [eapply tri_weak; [apply b_store; intros i; apply flat_pay|cost]|]. apply tri_ret_bind; [cost|].
    eapply tri_weak; [apply b_store; intros i; apply flat_enc|cost].
Qed.
Lemma b_encoded_host N s : tri (ok N) (bound N (length s)) (c_set_encoded_host E s) anyway.
Proof.
  start c_set_encoded_host. pieces. apply tri_if; [apply b_host|]. parse Lhn. eapply (tri_bind _ _ _ _ (4 * N + 20 * length s + 250)); [|cost|intros ?; cbv beta; flt].
  eapply tri_weak; [apply b_store; intros i; apply flat_pay|cost].
Qed.
Lemma b_port0 N s : tri (ok N) (4 * N + 16 * length s + 1400) (c_set_port E s) anyway.
Proof.
  unfold c_set_port. pieces. apply tri_if.
  - apply tri_get_upt; [cost|intros ? ?]. apply tri_if; [|st]. eapply (tri_bind _ _ _ _ 3 _ _ (fun _ => ok N)); [|cost|intros ?; cbv beta; st].
    apply tri_if; [|eapply tri_weak; [apply keep_ret|lia]]. eapply tri_bind; [kstep|cost|intros ?; cbv beta]. eapply tri_weak; [kstep|cbn; lia].
  - parse Lport. st.
Qed.
Lemma b_port_part N s : tri (ok N) (bound N (length s)) (c_set_port_part E s) anyway.
Proof.
  start c_set_port_part. apply tri_if; [eapply tri_weak; [apply b_port0|lia]|]. apply tri_if; [flt|]. apply tri_if; [|st].
  eapply tri_weak; [apply b_port0|rewrite skipn_length; lia].
Qed.
Lemma b_path N s : tri (ok N) (bound N (length s)) (c_set_encoded_path E s) anyway.
Proof.
  start c_set_encoded_path. pieces. apply tri_if; [st|]. eapply tri_bind; [kstep|cost|intros ?; cbv beta]. apply tri_get_upt; [cost|intros ? ?].
  eapply (tri_bind _ _ _ _ (12 * length s + 1000) _ _ (fun _ => ok N)); [|cost|intros ?; cbv beta; st].
  destruct a; [eapply keep_parse, Lab|]. destruct (front_is s "/"); [eapply keep_parse, Labs|]. destruct (_ =? _); eapply keep_parse; [apply Lns|apply Lrl].
Qed.
Lemma b_query N s : tri (ok N) (bound N (length s)) (c_set_query E s) anyway.
Proof. start c_set_query. enc query_pct_set s. st. Qed.
Lemma b_fragment N s : tri (ok N) (bound N (length s)) (c_set_fragment E s) anyway.
Proof. start c_set_fragment. enc frag_pct_set s. st. Qed.
Lemma b_encoded_query N s : tri (ok N) (bound N (length s)) (c_set_encoded_query E s) anyway. Proof. start c_set_encoded_query. st. Qed.
Lemma b_encoded_fragment N s : tri (ok N) (bound N (length s)) (c_set_encoded_fragment E s) anyway. Proof. start c_set_encoded_fragment. st. Qed.
Lemma b_query_part N s : tri (ok N) (bound N (length s)) (c_set_query_part E s) anyway.
Proof. start c_set_query_part. assert (L1 : length (skipn 1 s) <= length s) by (rewrite skipn_length; lia). set (t := skipn 1 s) in *. clearbody t. st. Qed.
Lemma b_fragment_part N s : tri (ok N) (bound N (length s)) (c_set_fragment_part E s) anyway.
Proof. start c_set_fragment_part. assert (L1 : length (skipn 1 s) <= length s) by (rewrite skipn_length; lia). set (t := skipn 1 s) in *. clearbody t. st. Qed.
Lemma flat_normalize n : forall p, flat (2 * n) (c_normalize_loop n p).
Proof.
  induction n as [|n IH]; intros p; cbn [c_normalize_loop]; [apply flat_pay|].
  eapply (flat_bind _ _ _ 1); [intros u; cbn; lia|lia|intros c]. eapply flat_bind; [apply flat_pay|lia|intros ?]. eapply flat_weak; [apply IH|lia].
Qed.
Lemma b_normalize N : tri (ok N) (bound N 0) (c_normalize E) anyway.
Proof.
  unfold c_normalize. start c_normalize_scheme. apply tri_get_upt; [cost|intros pt H]. apply tri_if; [st|].
  eapply (tri_bind _ _ _ _ 3 _ _ (fun _ => ok N)); [|cost|intros ?; cbv beta; apply flat_tri; eapply flat_weak; [apply flat_normalize|cost]].
  apply tri_if; [|eapply tri_weak; [apply keep_ret|lia]]. eapply (tri_bind _ _ _ _ 1); [apply tri_observe; intros; cbn; lia|lia|intros ?; cbv beta]. eapply tri_weak; [kstep|cbn; lia].
Qed.
End Bounds.
