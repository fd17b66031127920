(** * ProofsBuild: builds with and without assertions *)

From Verif Require Import Base ModelChar ModelParts ModelParse ModelView ModelUrl SpecChar SpecGrammar SpecLink SpecView SpecStore SpecUrl SpecSegments SpecRes SpecBuild ProofsRes.

(** The first program is stopped by an assertion (or what it reads is undefined,
    or it does not end), or both do the same. *)
Definition stuck {A} (o : outcome A) : Prop := match o with Val _ | Exn _ => False | _ => True end.
Definition oagree {A} (o1 o2 : outcome A) : Prop := stuck o1 \/ o1 = o2.
Definition agree {S A} (m1 m2 : M S A) : Prop := forall s, stuck (fst (m1 s)) \/ m1 s = m2 s.

Lemma og_refl {A} (o : outcome A) : oagree o o. Proof. right. reflexivity. Qed.
Lemma og_bind {A B} (o1 o2 : outcome A) (f1 f2 : A -> outcome B) : oagree o1 o2 -> (forall a, oagree (f1 a) (f2 a)) -> oagree (obind o1 f1) (obind o2 f2).
Proof. intros [H|<-] Hf; [left; destruct o1; try destruct H; exact I|]. destruct o1; try (right; reflexivity). apply Hf. Qed.
Lemma og_assert b : oagree (oassert true b) (oassert false b).
Proof. destruct b; [right; reflexivity|left; exact I]. Qed.
Lemma og_assert_m c : ~ throws c -> oagree (oassert_m true c) (oassert_m false c).
Proof. intros H. unfold oassert_m. destruct c as [[|]|e| | |]; cbn; try (left; exact I); [right; reflexivity|]. destruct H. exists e. reflexivity. Qed.
#[local] Hint Resolve og_refl og_assert og_assert_m : og.
Lemma nt_char v i c : ~ throws (char_is v i c).
Proof. unfold char_is, rdc. intros (e & H). destruct (nth_error _ _) as [[x|]|]; discriminate. Qed.
Ltac og1 :=
  match goal with
  | |- oagree ?x ?x => right; reflexivity
  | |- oagree (obind _ _) (obind _ _) => apply og_bind; [|intros ?]
  | |- oagree (oassert true _) (oassert false _) => apply og_assert
  | |- oagree (oassert_m true (if ?b then _ else _)) _ => destruct b
  | |- oagree (oassert_m true _) (oassert_m false _) => apply og_assert_m, nt_char
  | |- oagree (if ?b then _ else _) (if ?b then _ else _) => destruct b
  | |- oagree (match ?b with _ => _ end) (match ?b with _ => _ end) => destruct b
  | |- oagree (let _ := _ in _) _ => cbv zeta
  | _ => solve [auto with og]
  end.
Ltac og := repeat og1.

(** ** Observers *)

Section View.
Variable v : view.
Lemma og_scheme : oagree (scheme true v) (scheme false v). Proof. unfold scheme. og. Qed.
Lemma og_authority : oagree (encoded_authority true v) (encoded_authority false v). Proof. unfold encoded_authority. og. Qed.
Lemma og_rest : oagree (has_userinfo_rest true v) (has_userinfo_rest false v). Proof. unfold has_userinfo_rest. og. Qed.
Hint Resolve og_rest : og.
Lemma og_hview : oagree (has_userinfo_view true v) (has_userinfo_view false v). Proof. unfold has_userinfo_view. og. Qed.
Lemma og_hbase : oagree (has_userinfo_base true v) (has_userinfo_base false v). Proof. unfold has_userinfo_base. og. Qed.
Hint Resolve og_hview og_hbase : og.
Lemma og_upart : oagree (userinfo_part true v) (userinfo_part false v). Proof. unfold userinfo_part. og. Qed.
Hint Resolve og_upart : og.
Lemma og_uview : oagree (encoded_userinfo_view true v) (encoded_userinfo_view false v). Proof. unfold encoded_userinfo_view. og. Qed.
Lemma og_ubase : oagree (encoded_userinfo_base true v) (encoded_userinfo_base false v). Proof. unfold encoded_userinfo_base. og. Qed.
Lemma og_user : oagree (encoded_user true v) (encoded_user false v). Proof. unfold encoded_user. og. Qed.
Lemma og_pview : oagree (encoded_password_view true v) (encoded_password_view false v). Proof. unfold encoded_password_view. og. Qed.
Lemma og_pbase : oagree (encoded_password_base true v) (encoded_password_base false v). Proof. unfold encoded_password_base. og. Qed.
Lemma og_ppart : oagree (password_part true v) (password_part false v). Proof. unfold password_part. og. Qed.
Lemma og_port : oagree (port true v) (port false v). Proof. unfold port. og. Qed.
Lemma og_portp : oagree (port_part true v) (port_part false v). Proof. unfold port_part. og. Qed.
Lemma og_query : oagree (encoded_query true v) (encoded_query false v). Proof. unfold encoded_query. og. Qed.
Lemma og_queryp : oagree (query_part true v) (query_part false v). Proof. unfold query_part. og. Qed.
Lemma og_frag : oagree (encoded_fragment true v) (encoded_fragment false v). Proof. unfold encoded_fragment. og. Qed.
Lemma og_fragp : oagree (fragment_part true v) (fragment_part false v). Proof. unfold fragment_part. og. Qed.
Hint Resolve og_user og_pview og_pbase og_query og_frag : og.
Lemma og_duser : oagree (user true v) (user false v). Proof. unfold user. og. Qed.
Lemma og_dpview : oagree (password_view true v) (password_view false v). Proof. unfold password_view. og. Qed.
Lemma og_dpbase : oagree (password_base true v) (password_base false v). Proof. unfold password_base. og. Qed.
Lemma og_dquery : oagree (query true v) (query false v). Proof. unfold query. og. Qed.
Lemma og_dfrag : oagree (fragment true v) (fragment false v). Proof. unfold fragment. og. Qed.

Lemma og_parse_to e o : oagree (seg_parse_to true v e o) (seg_parse_to false v e o). Proof. unfold seg_parse_to. og. Qed.
Section Seg.
Variables p1 p2 : nat -> outcome seg_it.
Hypothesis Hp : forall o, oagree (p1 o) (p2 o).
Hint Resolve Hp : og.
Lemma og_seg_iter e : oagree (seg_iter v p1 e) (seg_iter v p2 e). Proof. unfold seg_iter. og. Qed.
Lemma og_seg_incr i : oagree (seg_incr true v p1 i) (seg_incr false v p2 i). Proof. unfold seg_incr. og. Qed.
Lemma og_seg_decr i : oagree (seg_decr true v p1 i) (seg_decr false v p2 i). Proof. unfold seg_decr. og. Qed.
Lemma og_seg_eq i j : oagree (seg_eq true i j) (seg_eq false i j). Proof. unfold seg_eq. og. Qed.
Hint Resolve og_seg_iter og_seg_incr og_seg_eq : og.
Lemma og_seg_loop n : forall i j, oagree (seg_loop true v p1 n i j) (seg_loop false v p2 n i j).
Proof. induction n as [|n IH]; intros i j; cbn [seg_loop]; og. Qed.
Lemma og_seg_all n : oagree (seg_all true v p1 n) (seg_all false v p2 n).
Proof. unfold seg_all, seg_begin, seg_end. og. apply og_seg_loop. Qed.
End Seg.

Lemma og_par_parse o : oagree (par_parse true v o) (par_parse false v o). Proof. unfold par_parse. og. Qed.
Hint Resolve og_par_parse : og.
Lemma og_par_iter e : oagree (par_iter true v e) (par_iter false v e). Proof. unfold par_iter. og. Qed.
Lemma og_par_deref i : oagree (par_deref true v i) (par_deref false v i). Proof. unfold par_deref. og. Qed.
Lemma og_par_incr i : oagree (par_incr true v i) (par_incr false v i). Proof. unfold par_incr. og. Qed.
Lemma og_par_decr i : oagree (par_decr true v i) (par_decr false v i). Proof. unfold par_decr. og. Qed.
Lemma og_par_eq i j : oagree (par_eq true i j) (par_eq false i j). Proof. unfold par_eq. og. Qed.
Lemma og_key_loop : forall a b, oagree (key_equal_loop true a b) (key_equal_loop false a b).
Proof.
  intros a. remember (length a) as n eqn:En. revert a En. induction n as [n IH] using lt_wf_ind. intros a En b.
  destruct a as [|c0 r0]; cbn [key_equal_loop]; [og|]. destruct b as [|c1 r1]; [og|]. destruct (negb _).
  - destruct (Ascii.eqb _ _); [|og]. eapply IH; [|reflexivity]. subst n. cbn. lia.
  - apply og_bind; [og|intros _]. destruct r0 as [|x [|y r2]]; [og|og|]. destruct (Ascii.eqb _ _); [|og]. eapply IH; [|reflexivity]. subst n. cbn. lia.
Qed.
Lemma og_key a b : oagree (key_equal true a b) (key_equal false a b).
Proof. unfold key_equal. destruct (_ <? _); [og|apply og_key_loop]. Qed.
Hint Resolve og_par_iter og_par_deref og_par_incr og_par_eq og_key : og.
Lemma og_par_loop n : forall i j, oagree (par_loop true v n i j) (par_loop false v n i j).
Proof. induction n as [|n IH]; intros i j; cbn [par_loop]; og. Qed.
Lemma og_par_all n : oagree (par_all true v n) (par_all false v n).
Proof. unfold par_all, par_begin, par_end. og. apply og_par_loop. Qed.
Lemma og_contains n k : oagree (contains true v n k) (contains false v n k).
Proof.
  unfold contains, par_begin, par_end. apply og_bind; [auto with og|intros b]. apply og_bind; [auto with og|intros e]. revert b.
  induction n as [|n IH]; intros b; cbn [contains_loop]; og.
Qed.
Lemma og_count n k : oagree (count true v n k) (count false v n k).
Proof.
  unfold count, par_begin, par_end. apply og_bind; [auto with og|intros b]. apply og_bind; [auto with og|intros e]. revert b. generalize 0.
  induction n as [|n IH]; intros x b; cbn [count_loop]; og.
Qed.
Lemma og_find n k : oagree (find true v n k) (find false v n k).
Proof.
  unfold find, par_begin, par_end. apply og_bind; [auto with og|intros b]. apply og_bind; [auto with og|intros e]. revert b.
  induction n as [|n IH]; intros b; cbn [find_loop]; og.
Qed.
Hint Resolve og_find : og.
Lemma og_index n k : oagree (index true v n k) (index false v n k). Proof. unfold index, par_end. og. Qed.
Lemma og_at n k : oagree (at_ true v n k) (at_ false v n k). Proof. unfold at_, par_end. og. Qed.
End View.

(** ** Programs with state *)

Lemma ag_refl {S A} (m : M S A) : agree m m. Proof. intros s. right. reflexivity. Qed.
Lemma ag_bind {S A B} (m1 m2 : M S A) (f1 f2 : A -> M S B) : agree m1 m2 -> (forall a, agree (f1 a) (f2 a)) -> agree (bind m1 f1) (bind m2 f2).
Proof.
  intros Hm Hf s. unfold bind. destruct (Hm s) as [H|H].
  - left. destruct (m1 s) as [[a|e| | |] s']; cbn in *; try destruct H; exact I.
  - rewrite <- H. destruct (m1 s) as [[a|e| | |] s']; try (right; reflexivity). apply Hf.
Qed.
Lemma ag_lift {S A} (o1 o2 : outcome A) : oagree o1 o2 -> @agree S A (lift o1) (lift o2).
Proof. intros [H|<-] s; [left; exact H|right; reflexivity]. Qed.
Lemma ag_observe {A} (f1 f2 : view -> outcome A) : (forall v, oagree (f1 v) (f2 v)) -> agree (observe f1) (observe f2).
Proof. intros H u. unfold observe. destruct (H (view_of u)) as [K| ->]; [left; exact K|right; reflexivity]. Qed.
#[local] Hint Resolve ag_refl : ag.
Ltac ag1 :=
  match goal with
  | |- agree ?x ?x => apply ag_refl
  | |- agree (bind _ _) (bind _ _) => apply ag_bind; [|intros ?]
  | |- agree (lift _) (lift _) => apply ag_lift
  | |- agree (passert _ _) (passert _ _) => apply ag_lift, og_assert
  | |- agree (if ?b then _ else _) (if ?b then _ else _) => destruct b
  | |- agree (match ?b with _ => _ end) (match ?b with _ => _ end) => destruct b
  | |- agree (let _ := _ in _) _ => cbv zeta
  | |- oagree _ _ => solve [auto with og]
  | _ => solve [auto with ag]
  end.
Ltac ag := repeat ag1.

(** ** The parser *)

Lemma ag_word : agree (parse_word true) (parse_word false). Proof. unfold parse_word. ag. Qed.
#[local] Hint Resolve ag_word : ag.
Lemma ag_ipv6_loop n : forall k b c w, agree (ipv6_loop n true k b c w) (ipv6_loop n false k b c w).
Proof. induction n as [|n IH]; intros k b c w; cbn [ipv6_loop]; ag. Qed.
#[local] Hint Resolve ag_ipv6_loop : ag.
Lemma ag_ipv6 : agree (parse_ip_v6 true) (parse_ip_v6 false). Proof. unfold parse_ip_v6. ag. Qed.
#[local] Hint Resolve ag_ipv6 : ag.
Lemma ag_literal : agree (parse_ip_literal true) (parse_ip_literal false). Proof. unfold parse_ip_literal. ag. Qed.
#[local] Hint Resolve ag_literal : ag.
Lemma ag_hostname : agree (parse_hostname true) (parse_hostname false). Proof. unfold parse_hostname. ag. Qed.
#[local] Hint Resolve ag_hostname : ag.
Lemma ag_host : agree (parse_host true) (parse_host false). Proof. unfold parse_host. ag. Qed.
#[local] Hint Resolve ag_host : ag.
Lemma ag_authority : agree (parse_authority true) (parse_authority false). Proof. unfold parse_authority. ag. Qed.
#[local] Hint Resolve ag_authority : ag.
Lemma ag_part t : agree (parse_part_with true t) (parse_part_with false t). Proof. unfold parse_part_with. ag. Qed.
#[local] Hint Resolve ag_part : ag.
Lemma ag_url s : agree (parse_url_m true s) (parse_url_m false s). Proof. unfold parse_url_m, parse_hier_part, parse_relative_part. ag. Qed.
Lemma ag_origin : agree (parse_origin_m true) (parse_origin_m false). Proof. unfold parse_origin_m, parse_hier_part. ag. Qed.
Lemma ag_plain : agree (parse_plain_hostname_m true) (parse_plain_hostname_m false). Proof. unfold parse_plain_hostname_m. ag. Qed.
Lemma run_ec_agree m1 m2 s : agree m1 m2 -> oagree (run_ec m1 s) (run_ec m2 s).
Proof.
  intros H. unfold run_ec. destruct (H (pst0 s)) as [K|K]; [left|right; rewrite K; reflexivity].
  destruct (m1 (pst0 s)) as [[a|e| | |] s']; cbn in *; try destruct K; exact I.
Qed.
Lemma og_parse_url s : oagree (parse_url true s) (parse_url false s). Proof. apply run_ec_agree, ag_url. Qed.
Lemma og_parse_origin s : oagree (parse_origin true s) (parse_origin false s). Proof. apply run_ec_agree, ag_origin. Qed.
Lemma og_parse_authority s : oagree (parse_authority_s true s) (parse_authority_s false s). Proof. apply run_ec_agree. ag. Qed.
Lemma og_parse_hostname s : oagree (parse_hostname_s true s) (parse_hostname_s false s). Proof. apply run_ec_agree. ag. Qed.
Lemma og_parse_plain s : oagree (parse_plain_hostname true s) (parse_plain_hostname false s). Proof. apply run_ec_agree, ag_plain. Qed.
#[local] Hint Resolve og_parse_url og_parse_origin og_parse_authority og_parse_hostname og_parse_plain og_parse_to : og.

(** ** Modifiers *)

(** Blocks that exist only with assertions. *)
Definition quiet (m : U unit) : Prop := forall u, stuck (fst (m u)) \/ m u = (Val tt, u).
Lemma quiet_ret m : quiet m -> agree m (ret tt). Proof. exact (fun H => H). Qed.
Lemma quiet_assert E b : quiet (uassert E b).
Proof. intros u. unfold uassert, lift, oassert. destruct (dbg E && negb b); [left; exact I|right; reflexivity]. Qed.
Lemma quiet_then m m' : quiet m -> quiet m' -> quiet (bind m (fun _ => m')).
Proof.
  intros H H' u. unfold bind. destruct (H u) as [K|K]; [left; destruct (m u) as [[a|e| | |] w]; cbn in *; try destruct K; exact I|]. rewrite K. apply H'.
Qed.
Lemma quiet_observe {A} (f : view -> outcome A) g : (forall v, ~ throws (f v)) -> (forall a, quiet (g a)) -> quiet (bind (observe f) g).
Proof.
  intros H Hg u. unfold bind, observe. destruct (f (view_of u)) as [a|e| | |] eqn:F; try (left; exact I); [apply Hg|].
  destruct (H (view_of u)). exists e. exact F.
Qed.
Lemma nt_sub v a b : ~ throws (sub_view v a b).
Proof. unfold sub_view. intros (e & H). destruct (_ && _) in H; [|discriminate]. destruct (all_init _) in H; discriminate. Qed.
Lemma nt_rdc v i : ~ throws (rdc v i).
Proof. unfold rdc. intros (e & H). destruct (nth_error _ _) as [[c|]|]; discriminate. Qed.
Ltac quiet := repeat first [apply quiet_assert | apply quiet_observe; [intros; first [apply nt_sub | apply nt_rdc]|intros ?] | apply quiet_then].

Section Env.
Variable E : env.
Notation T := (build true E).
Notation F := (build false E).
Lemma ag_assert b : agree (uassert T b) (uassert F b). Proof. apply ag_lift, og_assert. Qed.
Lemma ag_reserve n : agree (st_reserve T n) (st_reserve F n). Proof. intros u. right. reflexivity. Qed.
Lemma ag_resize n : agree (st_resize T n) (st_resize F n). Proof. intros u. right. reflexivity. Qed.
Lemma ag_url_resize i n : agree (url_resize T i n) (url_resize F i n). Proof. intros u. right. reflexivity. Qed.
Lemma ag_url_resize2 i j n : agree (url_resize2 T i j n) (url_resize2 F i j n). Proof. intros u. right. reflexivity. Qed.
Hint Resolve ag_assert ag_reserve ag_resize ag_url_resize ag_url_resize2 : ag.
Lemma ag_split i n : agree (url_split T i n) (url_split F i n). Proof. unfold url_split. ag. Qed.
Lemma ag_password_at : agree (assert_password_at T) (assert_password_at F).
Proof. unfold assert_password_at. cbn [dbg build]. apply ag_bind; [apply ag_refl|intros u]. apply quiet_ret. unfold vget, vget2. quiet. Qed.
Lemma ag_user_slashes : agree (assert_user_slashes T) (assert_user_slashes F).
Proof. unfold assert_user_slashes. cbn [dbg build]. apply quiet_ret. unfold vget, vget2. quiet. Qed.
Lemma ag_nul : agree (assert_nul_at_end T) (assert_nul_at_end F).
Proof. unfold assert_nul_at_end. cbn [dbg build]. apply quiet_ret. intros u. unfold bind at 1, get_st. apply (quiet_observe (fun v => rdc v (usize u))); [intros; apply nt_rdc|intros c; apply quiet_assert]. Qed.
Hint Resolve ag_split ag_password_at ag_user_slashes ag_nul : ag.
Ltac agu := repeat first
  [ match goal with
    | |- agree (uparse _) (uparse _) => apply ag_lift; cbn [dbg build]
    | |- oagree (parse_url _ _) (parse_url _ _) => apply og_parse_url
    | |- oagree (parse_origin _ _) (parse_origin _ _) => apply og_parse_origin
    | |- agree (observe _) (observe _) => apply ag_observe; intros ?; cbn [dbg build]
    | |- agree (if dbg T then _ else _) _ => cbn [dbg build]; apply quiet_ret; unfold vget, vget2; quiet
    end
  | ag1 ].
Lemma ag_userinfo s : agree (set_encoded_userinfo T s) (set_encoded_userinfo F s). Proof. unfold set_encoded_userinfo. agu. Qed.
Lemma ag_user s : agree (set_user T s) (set_user F s). Proof. unfold set_user. agu. Qed.
Lemma ag_password s : agree (set_password T s) (set_password F s). Proof. unfold set_password. agu. Qed.
Hint Resolve ag_userinfo ag_user ag_password : ag.
Lemma ag_encoded_password s : agree (set_encoded_password T s) (set_encoded_password F s). Proof. unfold set_encoded_password. agu. Qed.
Lemma ag_store_host t n : agree (store_host T t n) (store_host F t n). Proof. unfold store_host. agu. Qed.
Hint Resolve ag_encoded_password ag_store_host : ag.
Lemma ag_port s : agree (set_port T s) (set_port F s). Proof. unfold set_port. agu. Qed.
Lemma ag_set_host s : agree (set_host T s) (set_host F s). Proof. unfold set_host. agu. Qed.
Lemma ag_query s : agree (set_query T s) (set_query F s). Proof. unfold set_query. agu. Qed.
Lemma ag_fragment s : agree (set_fragment T s) (set_fragment F s). Proof. unfold set_fragment. agu. Qed.
Hint Resolve ag_port ag_set_host ag_query ag_fragment : ag.
Lemma ag_encoded_query s : agree (set_encoded_query T s) (set_encoded_query F s). Proof. unfold set_encoded_query. agu. Qed.
Lemma ag_encoded_fragment s : agree (set_encoded_fragment T s) (set_encoded_fragment F s). Proof. unfold set_encoded_fragment. agu. Qed.
Hint Resolve ag_encoded_query ag_encoded_fragment : ag.
Lemma ag_run o : agree (run T o) (run F o).
Proof.
  destruct o; cbn [run]; try solve [auto with ag];
    unfold set_encoded_url, set_encoded_origin, set_scheme, set_encoded_authority, set_userinfo_part, set_encoded_user, set_password_part, set_encoded_host,
      set_port_n, set_port_part, set_encoded_path, set_query_part, set_fragment_part, normalize, normalize_scheme; agu.
Qed.
Lemma ag_make_url s : oagree (make_url T s) (make_url F s).
Proof.
  unfold make_url. destruct (ag_run (Set_encoded_url s) url0) as [K|K]; cbn [run] in K; [left|right; rewrite K; reflexivity].
  destruct (set_encoded_url T s url0) as [[a|e| | |] w]; cbn in *; try destruct K; exact I.
Qed.
Lemma og_base v i : oagree (seg_incr true v (seg_parse_base true v) i) (seg_incr false v (seg_parse_base false v) i).
Proof. apply og_seg_incr. intros o. apply og_parse_to. Qed.
Lemma og_parse_base v o : oagree (seg_parse_base true v o) (seg_parse_base false v o). Proof. apply og_parse_to. Qed.
Hint Resolve og_base og_parse_base : og.
Lemma ag_erase2 p q : agree (seg_erase2 T p q) (seg_erase2 F p q). Proof. unfold seg_erase2. agu. Qed.
Hint Resolve ag_erase2 : ag.
Lemma ag_erase p : agree (seg_erase T p) (seg_erase F p). Proof. unfold seg_erase. agu. Qed.
Lemma ag_raw p t n : agree (seg_insert_raw T p t n) (seg_insert_raw F p t n). Proof. unfold seg_insert_raw. agu. Qed.
Lemma ag_seg_reserve n m : agree (seg_reserve T n m) (seg_reserve F n m). Proof. unfold seg_reserve. agu. Qed.
Hint Resolve ag_erase ag_raw ag_seg_reserve : ag.
Lemma og_position u i : oagree (position true u i) (position false u i).
Proof.
  induction i as [|i IH]; cbn [position].
  - unfold seg_begin. apply og_seg_iter. intros o. apply og_parse_to.
  - apply og_bind; [exact IH|intros p; apply og_base].
Qed.
Lemma ag_pos i : agree (at_position T i) (at_position F i).
Proof. intros u. unfold at_position. cbn [dbg build]. destruct (og_position u i) as [K|K]; [left; exact K|right; rewrite K; reflexivity]. Qed.
Hint Resolve ag_pos : ag.
Lemma ag_run_edit e : agree (run_edit T e) (run_edit F e).
Proof.
  destruct e; cbn [run_edit]; unfold seg_insert_encoded, seg_insert, seg_replace_encoded, seg_replace, seg_insert_encoded_impl, seg_insert_impl; agu.
Qed.
End Env.

(** ** The statements *)

Lemma og_follows {A} (o1 o2 : outcome A) : oagree o1 o2 -> follows o1 o2.
Proof. intros [H|H] K; [destruct o1; try discriminate K; destruct H|symmetry; exact H]. Qed.
Lemma observers_lemma v : observers_follow v.
Proof.
  split; try split; apply og_follows;
    auto using og_scheme, og_authority, og_hview, og_hbase, og_uview, og_ubase, og_upart, og_user, og_duser, og_pview, og_dpview, og_pbase, og_dpbase,
      og_ppart, og_port, og_portp, og_query, og_dquery, og_queryp, og_frag, og_dfrag, og_fragp.
Qed.
Lemma segments_lemma v e : segments_follow v (fun d => seg_parse_to d v e).
Proof.
  assert (Hp : forall o, oagree (seg_parse_to true v e o) (seg_parse_to false v e o)) by (intros; apply og_parse_to).
  split; intros; apply og_follows; auto using og_seg_iter, og_seg_incr, og_seg_decr, og_seg_eq, og_seg_all.
Qed.
Lemma params_lemma v : params_follow v.
Proof.
  split; intros; apply og_follows;
    auto using og_par_iter, og_par_deref, og_par_incr, og_par_decr, og_par_eq, og_par_all, og_contains, og_count, og_find, og_index, og_at.
Qed.
Lemma modifier_lemma E o u r u' : run (build true E) o u = (r, u') -> ends r = true -> run (build false E) o u = (r, u').
Proof. intros R H. destruct (ag_run E o u) as [K|K]; [|rewrite <- K; exact R]. rewrite R in K. cbn in K. destruct r; try discriminate H; destruct K. Qed.
Lemma edit_lemma E e u r u' : run_edit (build true E) e u = (r, u') -> ends r = true -> run_edit (build false E) e u = (r, u').
Proof. intros R H. destruct (ag_run_edit E e u) as [K|K]; [|rewrite <- K; exact R]. rewrite R in K. cbn in K. destruct r; try discriminate H; destruct K. Qed.
Lemma act_lemma E x u r u' : act (build true E) x u = (r, u') -> ends r = true -> act (build false E) x u = (r, u').
Proof.
  intros R H. destruct x as [o|e]; cbn [act] in *.
  - destruct (run (build true E) o u) as [q w] eqn:Q. injection R as <- <-.
    rewrite (modifier_lemma E o u q w Q); [reflexivity|destruct q; exact H].
  - destruct (run_edit (build true E) e u) as [q w] eqn:Q. injection R as <- <-.
    rewrite (edit_lemma E e u q w Q); [reflexivity|destruct q; exact H].
Qed.
Lemma acts_lemma l : forall u x, acts true l u = Some x -> acts false l u = Some x.
Proof.
  induction l as [|(E, a) l IH]; intros u x H; [exact H|]. cbn [acts] in *. destruct (act (build true E) a u) as [r u'] eqn:R. destruct (ends r) eqn:K; [|discriminate].
  rewrite (act_lemma E a u r u' R K), K. destruct (acts true l u') as [(rs, w)|] eqn:Q; [|discriminate]. rewrite (IH _ _ Q). exact H.
Qed.
Lemma make_url_lemma E s : follows (make_url (build true E) s) (make_url (build false E) s).
Proof. apply og_follows, ag_make_url. Qed.
