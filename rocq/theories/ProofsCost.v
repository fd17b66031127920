(** * ProofsCost: the counted parser computes the same, in linear time *)

From Verif Require Import Base ModelChar ModelParts ModelParse ModelCost SpecCost.
Local Open Scope cost_scope.

(** ** Forgetting the count *)

Definition erases {A} (t : T A) (m : P A) : Prop := forall st, fst (t st) = m st.

Lemma erases_ret : forall A (a : A), erases (t_ret a) (ret a).
Proof. intros A a st. reflexivity. Qed.
Lemma erases_tick : forall A n (m : P A), erases (tick n m) m.
Proof. intros A n m st. reflexivity. Qed.
Lemma erases_bind : forall A B (t : T A) (m : P A) (f : A -> T B) (g : A -> P B),
  erases t m -> (forall a, erases (f a) (g a)) -> erases (t_bind t f) (bind m g).
Proof.
  intros A B t m f g H K st. unfold t_bind, bind. specialize (H st).
  destruct (t st) as [[o st'] n]. cbn in H. rewrite <- H. destruct o; try reflexivity.
  specialize (K a st'). destruct (f a st') as [[o2 st2] n2]. exact K.
Qed.
Lemma erases_if : forall A (b : bool) (t1 t2 : T A) m1 m2,
  erases t1 m1 -> erases t2 m2 -> erases (if b then t1 else t2) (if b then m1 else m2).
Proof. intros A [|]; auto. Qed.
Lemma erases_pct : forall e l, erases (t_pct_parse_at e l) (pct_parse_at e l).
Proof. intros e l st. reflexivity. Qed.

Create HintDb erase.
#[local] Hint Resolve erases_ret erases_tick erases_pct : erase.
Ltac er :=
  match goal with
  | |- forall _, _ => intro; er
  | |- erases (t_bind _ _) _ => apply erases_bind; er
  | |- erases (if _ then _ else _) _ => apply erases_if; er
  | |- erases (match ?x with _ => _ end) _ => destruct x; er
  | |- _ => solve [auto with erase | apply erases_tick]
  end.

Lemma e_match_scheme : erases t_match_scheme match_scheme.
Proof. unfold t_match_scheme, match_scheme. er. Qed.
#[local] Hint Resolve e_match_scheme : erase.
Lemma e_match_octet : erases t_match_octet match_octet.
Proof. unfold t_match_octet, match_octet. er. Qed.
#[local] Hint Resolve e_match_octet : erase.
Lemma e_octet_dot : forall a, erases (t_octet_dot a) (octet_dot a).
Proof. intros a. unfold t_octet_dot, octet_dot. er. Qed.
#[local] Hint Resolve e_octet_dot : erase.
Lemma e_match_ip_v4 : erases t_match_ip_v4 match_ip_v4.
Proof. unfold t_match_ip_v4, match_ip_v4. er. Qed.
#[local] Hint Resolve e_match_ip_v4 : erase.
Lemma e_parse_word_more : forall k v, erases (t_parse_word_more k v) (parse_word_more k v).
Proof. induction k as [|k IH]; intros v; cbn [t_parse_word_more parse_word_more]; er. Qed.
#[local] Hint Resolve e_parse_word_more : erase.
Lemma e_parse_word : forall d, erases (t_parse_word d) (parse_word d).
Proof. intros d. unfold t_parse_word, parse_word. er. Qed.
#[local] Hint Resolve e_parse_word : erase.
Lemma e_ipv6_v4_tail : erases t_ipv6_v4_tail ipv6_v4_tail.
Proof. unfold t_ipv6_v4_tail, ipv6_v4_tail. cbv zeta. er. Qed.
#[local] Hint Resolve e_ipv6_v4_tail : erase.
Lemma e_ipv6_loop : forall f d n b c w, erases (t_ipv6_loop f d n b c w) (ipv6_loop f d n b c w).
Proof.
  induction f as [|f IH]; intros d n b c w; cbn [t_ipv6_loop ipv6_loop]; cbv zeta; er.
Qed.
#[local] Hint Resolve e_ipv6_loop : erase.
Lemma e_parse_ip_v6 : forall d, erases (t_parse_ip_v6 d) (parse_ip_v6 d).
Proof. intros d. unfold t_parse_ip_v6, parse_ip_v6. er. Qed.
#[local] Hint Resolve e_parse_ip_v6 : erase.
Lemma e_match_port : erases t_match_port match_port.
Proof. unfold t_match_port, match_port. er. Qed.
#[local] Hint Resolve e_match_port : erase.
Lemma e_parse_ip_literal : forall d, erases (t_parse_ip_literal d) (parse_ip_literal d).
Proof. intros d. unfold t_parse_ip_literal, parse_ip_literal. er. Qed.
#[local] Hint Resolve e_parse_ip_literal : erase.
Lemma e_ipv4_or_domain : erases t_parse_ipv4_or_domain parse_ipv4_or_domain.
Proof. unfold t_parse_ipv4_or_domain, parse_ipv4_or_domain. er. Qed.
#[local] Hint Resolve e_ipv4_or_domain : erase.
Lemma e_parse_hostname : forall d, erases (t_parse_hostname d) (parse_hostname d).
Proof. intros d. unfold t_parse_hostname, parse_hostname. er. Qed.
#[local] Hint Resolve e_parse_hostname : erase.
Lemma e_parse_host : forall d, erases (t_parse_host d) (parse_host d).
Proof. intros d. unfold t_parse_host, parse_host. er. Qed.
#[local] Hint Resolve e_parse_host : erase.
Lemma e_parse_userinfo : erases t_parse_userinfo parse_userinfo.
Proof. unfold t_parse_userinfo, parse_userinfo. er. Qed.
#[local] Hint Resolve e_parse_userinfo : erase.
Lemma e_parse_authority : forall d, erases (t_parse_authority d) (parse_authority d).
Proof. intros d. unfold t_parse_authority, parse_authority. er. Qed.
#[local] Hint Resolve e_parse_authority : erase.
Lemma e_segments_loop : forall f, erases (t_segments_loop f) (segments_loop f).
Proof. induction f as [|f IH]; cbn [t_segments_loop segments_loop]; er. Qed.
#[local] Hint Resolve e_segments_loop : erase.
Lemma e_parse_segments : erases t_parse_segments parse_segments.
Proof. unfold t_parse_segments, parse_segments. er. Qed.
#[local] Hint Resolve e_parse_segments : erase.
Lemma e_abempty : erases t_parse_path_abempty parse_path_abempty.
Proof. unfold t_parse_path_abempty, parse_path_abempty. er. Qed.
Lemma e_absolute : erases t_parse_path_absolute parse_path_absolute.
Proof. unfold t_parse_path_absolute, parse_path_absolute. er. Qed.
Lemma e_noscheme : erases t_parse_path_noscheme parse_path_noscheme.
Proof. unfold t_parse_path_noscheme, parse_path_noscheme. er. Qed.
Lemma e_rootless : erases t_parse_path_rootless parse_path_rootless.
Proof. unfold t_parse_path_rootless, parse_path_rootless. er. Qed.
#[local] Hint Resolve e_abempty e_absolute e_noscheme e_rootless : erase.
Lemma e_part_with : forall d t m, erases t m -> erases (t_parse_part_with d t) (parse_part_with d m).
Proof. intros d t m H. unfold t_parse_part_with, parse_part_with. er. Qed.
Lemma e_hier : forall d, erases (t_parse_hier_part d) (parse_hier_part d).
Proof. intros d. unfold t_parse_hier_part, parse_hier_part. apply e_part_with. exact e_rootless. Qed.
Lemma e_relative : forall d, erases (t_parse_relative_part d) (parse_relative_part d).
Proof. intros d. unfold t_parse_relative_part, parse_relative_part. apply e_part_with. exact e_noscheme. Qed.
#[local] Hint Resolve e_hier e_relative : erase.
Lemma e_query_loop : forall f n, erases (t_query_loop f n) (query_loop f n).
Proof. induction f as [|f IH]; intros n; cbn [t_query_loop query_loop]; cbv zeta; er. Qed.
#[local] Hint Resolve e_query_loop : erase.
Lemma e_parse_query : erases t_parse_query parse_query.
Proof. unfold t_parse_query, parse_query. er. Qed.
Lemma e_parse_fragment : erases t_parse_fragment parse_fragment.
Proof. unfold t_parse_fragment, parse_fragment. er. Qed.
#[local] Hint Resolve e_parse_query e_parse_fragment : erase.
Lemma e_tail : erases t_parse_url_tail parse_url_tail.
Proof. unfold t_parse_url_tail, parse_url_tail. er. Qed.
#[local] Hint Resolve e_tail : erase.
Lemma e_parse_url_m : forall d s, erases (t_parse_url_m d s) (parse_url_m d s).
Proof. intros d s. unfold t_parse_url_m, parse_url_m. er. Qed.
Lemma e_parse_origin_m : forall d, erases (t_parse_origin_m d) (parse_origin_m d).
Proof. intros d. unfold t_parse_origin_m, parse_origin_m. er. Qed.
Lemma e_must_be_done : erases t_must_be_done must_be_done.
Proof. unfold t_must_be_done, must_be_done. er. Qed.
#[local] Hint Resolve e_must_be_done : erase.
Lemma e_plain_hostname : forall d, erases (t_parse_plain_hostname_m d) (parse_plain_hostname_m d).
Proof. intros d. unfold t_parse_plain_hostname_m, parse_plain_hostname_m. er. Qed.

Lemma run_erases : forall (t : T unit) (m : P unit) s, erases t m -> fst (t_run_ec t s) = run_ec m s.
Proof.
  intros t m s H. unfold t_run_ec, run_ec. specialize (H (pst0 s)).
  destruct (t (pst0 s)) as [[o st] n]. cbn in H. rewrite <- H. destruct o; reflexivity.
Qed.

(** ** Bounds *)

(** [m] takes at most 12 steps for each character it moves over, [k] for each
    character that is left before it, and [b]; and at least one for each
    character it moves over. *)
Definition bounded {A} (m : T A) (k b : nat) : Prop := forall st,
  let '(_, st', n) := m st in
  length (p_ st') <= length (p_ st) /\ length (p_ st) <= n + length (p_ st') /\
  n + 12 * length (p_ st') <= (12 + k) * length (p_ st) + b.

Lemma bounded_weaken : forall A (m : T A) k b k' b', bounded m k b -> k <= k' -> b <= b' -> bounded m k' b'.
Proof.
  intros A m k b k' b' H K B st. specialize (H st). destruct (m st) as [[o st'] n].
  destruct H as [H1 [H2 H3]]. split; [exact H1|]. split; [exact H2|]. nia.
Qed.
Lemma bounded_ret : forall A (a : A), bounded (t_ret a) 0 0.
Proof. intros A a st. cbn. lia. Qed.
Lemma bounded_bind : forall A B (m : T A) (f : A -> T B) k b k' b',
  bounded m k b -> (forall a, bounded (f a) k' b') -> bounded (t_bind m f) (k + k') (b + b').
Proof.
  intros A B m f k b k' b' H K st. unfold t_bind. specialize (H st).
  destruct (m st) as [[o st'] n]. destruct H as [H1 [H2 H3]].
  destruct o; try (split; [exact H1|split; [exact H2|nia]]).
  specialize (K a st'). destruct (f a st') as [[o2 st2] n2]. destruct K as [K1 [K2 K3]].
  split; [lia|]. split; [lia|]. nia.
Qed.
Lemma bounded_if : forall A (c : bool) (m1 m2 : T A) k b k' b',
  bounded m1 k b -> bounded m2 k' b' -> bounded (if c then m1 else m2) (Nat.max k k') (Nat.max b b').
Proof. intros A [|] m1 m2 k b k' b' H K; eapply bounded_weaken; eauto; lia. Qed.
Lemma bounded_opt : forall A B (x : option B) (m1 : T A) (m2 : B -> T A) k b k' b',
  bounded m1 k b -> (forall y, bounded (m2 y) k' b') ->
  bounded (match x with None => m1 | Some y => m2 y end) (Nat.max k k') (Nat.max b b').
Proof. intros A B [y|] m1 m2 k b k' b' H K; eapply bounded_weaken; eauto; lia. Qed.

(** Steps that leave the position alone. *)
Lemma bounded_still : forall A n (m : P A), (forall st, p_ (snd (m st)) = p_ st) -> bounded (tick n m) 0 n.
Proof.
  intros A n m H st. unfold tick. specialize (H st). destruct (m st) as [o st']. cbn in H. rewrite H. lia.
Qed.
Lemma b_lift : forall A (o : outcome A), bounded (t_lift o) 0 0.
Proof. intros. apply bounded_still. reflexivity. Qed.
Lemma b_at_end : bounded t_at_end 0 1. Proof. apply bounded_still. reflexivity. Qed.
Lemma b_done : bounded t_done 0 1. Proof. apply bounded_still. reflexivity. Qed.
Lemma b_deref : bounded t_deref 0 1.
Proof. apply bounded_still. intros st. unfold deref. destruct (p_ st) eqn:E; cbn; auto. Qed.
Lemma b_has_ec : bounded t_has_ec 0 1. Proof. apply bounded_still. reflexivity. Qed.
Lemma b_no_match : bounded t_ec_is_no_match 0 1. Proof. apply bounded_still. reflexivity. Qed.
Lemma b_get_p : bounded t_get_p 0 1. Proof. apply bounded_still. reflexivity. Qed.
Lemma b_get_pt : bounded t_get_pt 0 1. Proof. apply bounded_still. reflexivity. Qed.
Lemma b_set_pt : forall pt, bounded (t_set_pt pt) 0 12. Proof. intros. apply bounded_still. reflexivity. Qed.
Lemma b_set_ec : forall ec, bounded (t_set_ec ec) 0 1. Proof. intros. apply bounded_still. reflexivity. Qed.
Lemma b_set_host_t : forall h, bounded (t_set_host_t h) 0 1. Proof. intros. apply bounded_still. reflexivity. Qed.
Lemma b_incr_nseg : bounded t_incr_nseg 0 1. Proof. apply bounded_still. reflexivity. Qed.
Lemma b_passert : forall d b, bounded (t_passert d b) 0 1. Proof. intros. apply bounded_still. reflexivity. Qed.
Lemma b_differs : forall q, bounded (t_p_differs q) 0 1. Proof. intros. apply bounded_still. reflexivity. Qed.
Lemma b_mark : forall id, bounded (t_mark id) 0 11.
Proof.
  intros id. eapply bounded_weaken; [apply bounded_still| |].
  - intros st. unfold mark, pos, get_pt, gets, bind, lift, set_pt, modify.
    destruct (id =? id_scheme); [destruct (presize _ _ _); reflexivity|].
    destruct (_ <? _); [reflexivity|]. destruct (presize _ _ _); reflexivity.
  - lia.
  - unfold id_end. lia.
Qed.
Lemma b_incr : bounded t_incr 0 1.
Proof. intros st. unfold t_incr, tick, incr. destruct (p_ st) eqn:E; cbn; rewrite ?E; cbn; lia. Qed.
Lemma b_match_literal : forall s, bounded (t_match_literal s) 0 (2 + length s).
Proof.
  intros s st. unfold t_match_literal, tick, match_literal, get_p, gets, bind, set_p, modify, ret.
  destruct (length (p_ st) <? length s) eqn:E; [lia|]. apply Nat.ltb_ge in E.
  destruct (str_eqb _ _); cbn [p_]; rewrite ?skipn_length; lia.
Qed.

(** The loops over the text. *)
Lemma pct_parse_bounds : forall e l ec,
  length (fst (pct_parse e l ec)) <= length l /\
  length l <= pct_parse_cost e l ec + length (fst (pct_parse e l ec)) /\
  pct_parse_cost e l ec + 4 * length (fst (pct_parse e l ec)) <= 4 * length l + (match snd (pct_parse e l ec) with None => 3 | Some _ => 6 end).
Proof.
  intros e l. remember (length l) as n eqn:Hn. revert l Hn.
  induction n as [n IH] using lt_wf_ind. intros [|c r] Hn ec; cbn in Hn; [subst n; destruct ec; cbn; lia|].
  cbn [pct_parse pct_parse_cost]. destruct (Ascii.eqb c "%").
  - cbv zeta. destruct (check_escape r ec) as [x|] eqn:X; [cbn [fst snd length]; lia|].
    destruct r as [|a [|b r2]]; try discriminate X.
    cbn in Hn. specialize (IH (length r2) ltac:(lia) r2 eq_refl None). lia.
  - destruct (is_special e c); [destruct ec; cbn [fst snd length]; lia|].
    specialize (IH (length r) ltac:(lia) r eq_refl ec). lia.
Qed.
Lemma bounded_pct : forall A e (g : str -> str) (f : str -> unit -> T A) k b,
  (forall l, length (g l) <= length l <= S (length (g l))) ->
  (forall l x, bounded (f l x) k b) ->
  bounded (l <- t_get_p ;; x <- t_pct_parse_at e (g l) ;; f l x) k (8 + b).
Proof.
  intros A e g f k b G K st. unfold t_bind, t_get_p, tick, get_p, gets.
  unfold t_pct_parse_at, tick, pct_parse_at, get_ec, gets, bind.
  pose proof (pct_parse_bounds e (g (p_ st)) (p_ec st)) as B. specialize (G (p_ st)).
  destruct (pct_parse e (g (p_ st)) (p_ec st)) as [l' ec'].
  cbn [fst snd] in B. unfold set_p, set_ec, modify. cbn [p_ p_len p_pt p_ec].
  match goal with |- context[f _ _ ?s] => specialize (K (p_ st) tt s); destruct (f (p_ st) tt s) as [[o st2] n2] end.
  cbn [p_] in K. destruct K as [K1 [K2 K3]].
  destruct B as [B1 [B2 B3]]. split; [lia|]. split; [lia|]. destruct ec'; nia.
Qed.
Lemma bounded_pct_last : forall e (g : str -> str),
  (forall l, length (g l) <= length l <= S (length (g l))) ->
  bounded (l <- t_get_p ;; t_pct_parse_at e (g l)) 0 8.
Proof.
  intros e g G st. pose proof (bounded_pct unit e g (fun _ x => t_ret x) 0 0 G (fun _ x => bounded_ret _ x) st) as H.
  unfold t_bind in *. destruct (t_get_p st) as [[o st'] n]. destruct o; try exact H.
  destruct (t_pct_parse_at e (g a) st') as [[o2 st2] n2]. destruct o2; try exact H.
  cbn in H. rewrite Nat.add_0_r in H. exact H.
Qed.
Lemma scheme_loop_bounds : forall l,
  length (scheme_loop l) <= length l /\ length l <= scheme_loop_cost l + length (scheme_loop l) /\
  scheme_loop_cost l + 3 * length (scheme_loop l) <= 3 * length l + 2.
Proof.
  induction l as [|c r IH]; cbn [scheme_loop scheme_loop_cost]; [cbn; lia|].
  destruct (is_scheme_char c); cbn [length] in *; lia.
Qed.
Lemma port_loop_bounds : forall l,
  length (port_loop l) <= length l /\ length l <= port_loop_cost l + length (port_loop l) /\
  port_loop_cost l + 3 * length (port_loop l) <= 3 * length l + 2.
Proof.
  induction l as [|c r IH]; cbn [port_loop port_loop_cost]; [cbn; lia|].
  destruct (9 <? digit_of c); cbn [length] in *; lia.
Qed.
Lemma octet_loop_bounds : forall l v,
  length (fst (octet_loop l v)) <= length l /\ length l <= octet_loop_cost l v + length (fst (octet_loop l v)) /\
  octet_loop_cost l v + 3 * length (fst (octet_loop l v)) <= 3 * length l + 2.
Proof.
  induction l as [|c r IH]; intros v; cbn [octet_loop octet_loop_cost]; cbv zeta; [cbn; lia|].
  destruct (10 <=? digit_of c); [cbn [fst length]; lia|].
  destruct (255 <? _); [cbn [fst length]; lia|].
  specialize (IH (10 * v + digit_of c)). cbn [length]. lia.
Qed.

Create HintDb bd.
#[local] Hint Resolve bounded_ret b_lift b_at_end b_done b_deref b_has_ec b_no_match b_get_p b_get_pt b_set_pt
  b_set_ec b_set_host_t b_incr_nseg b_passert b_differs b_mark b_incr b_match_literal : bd.
Lemma id_ok : forall l : str, length l <= length l <= S (length l).
Proof. intros. lia. Qed.
Lemma tl_ok : forall l : str, length (tl l) <= length l <= S (length (tl l)).
Proof. intros [|c r]; cbn; lia. Qed.

Ltac bd :=
  match goal with
  | |- forall _, _ => intro; bd
  | |- bounded (t_bind t_get_p (fun l => t_bind (t_pct_parse_at _ l) _)) _ _ =>
      eapply (bounded_pct _ _ (fun l => l)); [exact id_ok|bd]
  | |- bounded (t_bind t_get_p (fun l => t_bind (t_pct_parse_at _ (tl l)) _)) _ _ =>
      eapply (bounded_pct _ _ (@tl ascii)); [exact tl_ok|bd]
  | |- bounded (t_bind _ _) _ _ => eapply bounded_bind; bd
  | |- bounded (if _ then _ else _) _ _ => eapply bounded_if; bd
  | |- bounded (match ?x with Some _ => _ | None => _ end) _ _ => eapply bounded_opt; bd
  | |- _ => solve [eauto with bd]
  end.
Ltac bound := eapply bounded_weaken; [bd|cbn; lia|cbn; lia].

Lemma b_match_scheme : bounded t_match_scheme 0 6.
Proof.
  unfold t_match_scheme. eapply bounded_weaken;
    [eapply bounded_bind; [bd|]; intros e; eapply bounded_if; [bd|]; eapply bounded_bind; [bd|]; intros c;
     eapply bounded_if; [bd|]; eapply bounded_bind; [bd|]; intros _;
     instantiate (1 := 3); instantiate (1 := 0)|cbn; lia|cbn; lia].
  intros st. unfold t_bind, t_get_p, tick, get_p, gets, set_p, modify, t_ret. cbn [p_].
  pose proof (scheme_loop_bounds (p_ st)). lia.
Qed.
#[local] Hint Resolve b_match_scheme : bd.
Lemma b_match_octet : bounded t_match_octet 0 6.
Proof.
  unfold t_match_octet. eapply bounded_weaken;
    [eapply bounded_bind; [bd|]; intros e; eapply bounded_if; [bd|]; eapply bounded_bind; [bd|]; intros c;
     eapply bounded_if; [bd|]; eapply bounded_bind; [bd|]; intros _; eapply bounded_if; [bd|];
     instantiate (1 := 3); instantiate (1 := 0)|cbn; lia|cbn; lia].
  intros st. unfold t_bind, t_get_p, tick, get_p, gets, set_p, modify, t_ret. cbv zeta.
  pose proof (octet_loop_bounds (p_ st) (digit_of c)) as B.
  destruct (octet_loop (p_ st) (digit_of c)) as [l' v]. cbn [p_ fst] in *. lia.
Qed.
#[local] Hint Resolve b_match_octet : bd.
Lemma b_octet_dot : forall a, bounded (t_octet_dot a) 0 2.
Proof. intros a. unfold t_octet_dot. bound. Qed.
#[local] Hint Resolve b_octet_dot : bd.
Lemma b_match_ip_v4 : bounded t_match_ip_v4 0 33.
Proof. unfold t_match_ip_v4. bound. Qed.
#[local] Hint Resolve b_match_ip_v4 : bd.
Lemma b_parse_word_more : forall k v, bounded (t_parse_word_more k v) 0 (3 * k).
Proof.
  induction k as [|k IH]; intros v; cbn [t_parse_word_more]; [bound|].
  eapply bounded_weaken; [bd|cbn; lia|cbn; lia].
Qed.
Lemma b_parse_word : forall d, bounded (t_parse_word d) 0 13.
Proof.
  intros d. unfold t_parse_word. cbv zeta. pose proof (b_parse_word_more 3 : forall v, bounded (t_parse_word_more 3 v) 0 9) as H. bound.
Qed.
#[local] Hint Resolve b_parse_word : bd.
Lemma b_ipv6_v4_tail : bounded t_ipv6_v4_tail 0 26.
Proof. unfold t_ipv6_v4_tail. cbv zeta. bound. Qed.
#[local] Hint Resolve b_ipv6_v4_tail : bd.
Lemma b_ipv6_loop : forall f d n b c w, 0 < n -> bounded (t_ipv6_loop f d n b c w) 0 (24 * n + 40).
Proof.
  induction f as [|f IH]; intros d n b c w Hn.
  { cbn [t_ipv6_loop]. eapply bounded_weaken; [apply b_lift|lia|lia]. }
  destruct n as [|m]; [lia|]. cbn [t_ipv6_loop]. cbv zeta.
  replace (S m - 1) with m by lia.
  assert (R : forall b' c' w', bounded (if m =? 0 then t_ret tt else t_ipv6_loop f d m b' c' w') 0 (24 * m + 40)).
  { intros b' c' w'. destruct (m =? 0) eqn:E; [eapply bounded_weaken; [apply bounded_ret|lia|lia]|].
    apply Nat.eqb_neq in E. apply IH. lia. }
  eapply bounded_weaken with (k := 0) (b := 24 + (24 * m + 40)); [|lia|lia].
  clear IH.
  Local Ltac w := eapply bounded_weaken; [|apply le_n|].
  apply (bounded_bind _ _ _ _ 0 1 0 (23 + (24 * m + 40))); [bd|]. intros e.
  destruct e; [destruct b; eapply bounded_weaken; [bd|cbn; lia|cbn; lia| bd|cbn; lia|cbn; lia]|].
  apply (bounded_bind _ _ _ _ 0 1 0 (22 + (24 * m + 40))); [bd|]. intros ch.
  destruct (Ascii.eqb ch ":").
  { apply (bounded_bind _ _ _ _ 0 1 0 (21 + (24 * m + 40))); [bd|]. intros _.
    apply (bounded_bind _ _ _ _ 0 1 0 (20 + (24 * m + 40))); [bd|]. intros e.
    destruct e; [eapply bounded_weaken; [bd|lia|lia]|].
    apply (bounded_bind _ _ _ _ 0 1 0 (19 + (24 * m + 40))); [bd|]. intros ch2.
    destruct (Ascii.eqb ch2 ":").
    { destruct b; [eapply bounded_weaken; [bd|lia|lia]|].
      apply (bounded_bind _ _ _ _ 0 1 0 (18 + (24 * m + 40))); [bd|]. intros _.
      eapply bounded_weaken; [apply R|lia|lia]. }
    destruct c; [|eapply bounded_weaken; [bd|lia|lia]].
    apply (bounded_bind _ _ _ _ 0 13 0 (6 + (24 * m + 40))); [bd|]. intros w'.
    apply (bounded_bind _ _ _ _ 0 1 0 (5 + (24 * m + 40))); [bd|]. intros x.
    destruct x; [eapply bounded_weaken; [bd|lia|lia]|]. eapply bounded_weaken; [apply R|lia|lia]. }
  destruct (Ascii.eqb ch ".").
  { eapply bounded_weaken; [bd|cbn; lia|cbn; lia]. }
  destruct (b && _)%bool; [eapply bounded_weaken; [bd|lia|lia]|].
  destruct (negb c); [|eapply bounded_weaken; [bd|lia|lia]].
  apply (bounded_bind _ _ _ _ 0 13 0 (9 + (24 * m + 40))); [bd|]. intros w'.
  apply (bounded_bind _ _ _ _ 0 1 0 (8 + (24 * m + 40))); [bd|]. intros x.
  destruct x; [eapply bounded_weaken; [bd|lia|lia]|]. eapply bounded_weaken; [apply R|lia|lia].
Qed.
Lemma b_parse_ip_v6 : forall d, bounded (t_parse_ip_v6 d) 0 234.
Proof.
  intros d. unfold t_parse_ip_v6.
  pose proof (fun f => b_ipv6_loop f d 8 false false 0%Z ltac:(lia) : bounded (t_ipv6_loop f d 8 false false 0%Z) 0 232) as H.
  bound.
Qed.
#[local] Hint Resolve b_parse_ip_v6 : bd.
Lemma b_match_port : bounded t_match_port 0 3.
Proof.
  intros st. unfold t_match_port, t_bind, t_get_p, tick, get_p, gets, set_p, modify. cbn [p_].
  pose proof (port_loop_bounds (p_ st)). lia.
Qed.
#[local] Hint Resolve b_match_port : bd.
Lemma b_parse_ip_literal : forall d, bounded (t_parse_ip_literal d) 0 242.
Proof. intros d. unfold t_parse_ip_literal. bound. Qed.
#[local] Hint Resolve b_parse_ip_literal : bd.
Lemma b_ipv4_or_domain : bounded t_parse_ipv4_or_domain 0 46.
Proof. unfold t_parse_ipv4_or_domain. bound. Qed.
#[local] Hint Resolve b_ipv4_or_domain : bd.
Lemma b_parse_hostname : forall d, bounded (t_parse_hostname d) 0 303.
Proof. intros d. unfold t_parse_hostname. bound. Qed.
#[local] Hint Resolve b_parse_hostname : bd.
Lemma b_parse_host : forall d, bounded (t_parse_host d) 0 321.
Proof. intros d. unfold t_parse_host. bound. Qed.
#[local] Hint Resolve b_parse_host : bd.
Lemma b_parse_userinfo : bounded t_parse_userinfo 0 40.
Proof. unfold t_parse_userinfo. bound. Qed.
#[local] Hint Resolve b_parse_userinfo : bd.

Lemma b_segments_loop : forall f, bounded (t_segments_loop f) 0 4.
Proof.
  induction f as [|f IH]; intros st; [cbn; lia|]. cbn [t_segments_loop].
  unfold t_bind, t_at_end, t_deref, t_get_p, t_pct_parse_at, t_has_ec, t_incr_nseg, tick, t_ret.
  unfold at_end, deref, gets, get_p, pct_parse_at, get_ec, set_p, set_ec, has_ec, incr_nseg, gets, modify, bind.
  destruct (p_ st) as [|c r] eqn:E; [rewrite ?E; cbn [length]; lia|]. cbn beta iota. rewrite E.
  destruct (negb (Ascii.eqb c "/")); [rewrite E; cbn [length]; lia|]. cbn beta iota. rewrite E. cbn [tl].
  pose proof (pct_parse_bounds pchar_pct_set r (p_ec st)) as B.
  destruct (pct_parse pchar_pct_set r (p_ec st)) as [l' ec']. cbn [fst snd] in B.
  cbn [p_ p_len p_pt p_ec]. destruct ec' as [x|].
  { cbn [p_ length]. lia. }
  match goal with |- context[t_segments_loop f ?s] => specialize (IH s); destruct (t_segments_loop f s) as [[o st2] n2] end.
  cbn [p_ length] in *. lia.
Qed.
Lemma b_parse_segments : bounded t_parse_segments 0 5.
Proof. unfold t_parse_segments. pose proof b_segments_loop. bound. Qed.
#[local] Hint Resolve b_parse_segments : bd.
Lemma b_abempty : bounded t_parse_path_abempty 0 16.
Proof. unfold t_parse_path_abempty. bound. Qed.
Lemma b_absolute : bounded t_parse_path_absolute 0 31.
Proof. unfold t_parse_path_absolute. bound. Qed.
Lemma b_noscheme : bounded t_parse_path_noscheme 0 28.
Proof. unfold t_parse_path_noscheme. bound. Qed.
Lemma b_rootless : bounded t_parse_path_rootless 0 28.
Proof. unfold t_parse_path_rootless. bound. Qed.
#[local] Hint Resolve b_abempty b_absolute b_noscheme b_rootless : bd.
Lemma b_query_loop : forall f n, bounded (t_query_loop f n) 0 22.
Proof.
  induction f as [|f IH]; intros n st; [cbn; lia|]. cbn [t_query_loop]. cbv zeta.
  unfold t_bind, t_at_end, t_deref, t_incr, t_get_p, t_pct_parse_at, t_has_ec, tick, t_ret.
  unfold at_end, deref, incr, gets, get_p, pct_parse_at, get_ec, set_p, set_ec, has_ec, gets, modify, bind.
  pose proof (pct_parse_bounds qkey_pct_set (p_ st) (p_ec st)) as B.
  destruct (pct_parse qkey_pct_set (p_ st) (p_ec st)) as [l' ec']. cbn [fst snd] in B.
  cbn [p_ p_len p_pt p_ec]. destruct ec' as [x|]; [cbn [p_]; lia|].
  destruct l' as [|c l']; [cbn [p_ length] in *; lia|]. cbn beta iota. cbn [p_ p_len p_pt p_ec].
  destruct (negb (Ascii.eqb c "=")); [cbn [p_ length] in *; lia|]. cbn beta iota. cbn [p_ p_len p_pt p_ec].
  destruct l' as [|c2 l2] eqn:E2; [cbn [p_ length] in *; lia|]. rewrite <- E2 in *. clear E2 c2 l2. cbn beta iota. cbn [p_ p_len p_pt p_ec].
  pose proof (pct_parse_bounds qval_pct_set l' None) as B'.
  destruct (pct_parse qval_pct_set l' None) as [l2 ec2]. cbn [fst snd] in B'.
  cbn [p_ p_len p_pt p_ec]. destruct ec2 as [x|]; [cbn [p_ length] in *; lia|].
  destruct l2 as [|c2 l2]; [cbn [p_ length] in *; lia|]. cbn beta iota. cbn [p_ p_len p_pt p_ec].
  destruct (negb (Ascii.eqb c2 "&")); [cbn [p_ length] in *; lia|]. cbn beta iota. cbn [p_ p_len p_pt p_ec].
  match goal with |- context[t_query_loop f ?m ?s] => specialize (IH m s); destruct (t_query_loop f m s) as [[o st2] n2] end.
  cbn [p_ length] in *. lia.
Qed.
Lemma b_parse_query : bounded t_parse_query 0 49.
Proof. unfold t_parse_query. pose proof b_query_loop. bound. Qed.
Lemma b_parse_fragment : bounded t_parse_fragment 0 23.
Proof. unfold t_parse_fragment. bound. Qed.
#[local] Hint Resolve b_parse_query b_parse_fragment : bd.
Lemma b_tail : bounded t_parse_url_tail 0 76.
Proof. unfold t_parse_url_tail. bound. Qed.
#[local] Hint Resolve b_tail : bd.
Lemma b_must_be_done : bounded t_must_be_done 0 3.
Proof. unfold t_must_be_done. bound. Qed.
#[local] Hint Resolve b_must_be_done : bd.
Lemma b_plain_hostname : forall d, bounded (t_parse_plain_hostname_m d) 0 280.
Proof. intros d. unfold t_parse_plain_hostname_m. bound. Qed.

(** Functions that go back to where they began. *)
Definition within {A} (N : nat) (m : T A) (k b : nat) : Prop := forall st, length (p_ st) <= N ->
  let '(_, st', n) := m st in
  length (p_ st') <= N /\ length (p_ st) <= n + length (p_ st') /\
  n + 12 * length (p_ st') <= 12 * length (p_ st) + k * N + b.
Lemma within_of : forall A N (m : T A) k b, bounded m k b -> within N m k b.
Proof.
  intros A N m k b H st L. specialize (H st). destruct (m st) as [[o st'] n]. destruct H as [H1 [H2 H3]].
  split; [lia|]. split; [exact H2|]. nia.
Qed.
Lemma within_back : forall p0 : str, within (length p0) (t_set_p p0) 12 1.
Proof. intros p0 st L. cbn [t_set_p tick set_p modify p_]. lia. Qed.
Lemma within_bind : forall A B N (m : T A) (f : A -> T B) k b k' b',
  within N m k b -> (forall a, within N (f a) k' b') -> within N (t_bind m f) (k + k') (b + b').
Proof.
  intros A B N m f k b k' b' H K st L. unfold t_bind. specialize (H st L).
  destruct (m st) as [[o st'] n]. destruct H as [H1 [H2 H3]].
  destruct o; try (split; [exact H1|split; [exact H2|nia]]).
  specialize (K a st' H1). destruct (f a st') as [[o2 st2] n2]. destruct K as [K1 [K2 K3]].
  split; [lia|]. split; [lia|]. nia.
Qed.
Lemma within_weaken : forall A N (m : T A) k b k' b', within N m k b -> k <= k' -> b <= b' -> within N m k' b'.
Proof.
  intros A N m k b k' b' H K B st L. specialize (H st L). destruct (m st) as [[o st'] n].
  destruct H as [H1 [H2 H3]]. split; [exact H1|]. split; [exact H2|]. nia.
Qed.
Lemma within_if : forall A N (c : bool) (m1 m2 : T A) k b k' b',
  within N m1 k b -> within N m2 k' b' -> within N (if c then m1 else m2) (Nat.max k k') (Nat.max b b').
Proof. intros A N [|] m1 m2 k b k' b' H K; eapply within_weaken; eauto; lia. Qed.
Lemma within_bounded : forall A (f : str -> T A) k b,
  (forall p0, within (length p0) (f p0) k b) -> bounded (p0 <- t_get_p ;; f p0) k (1 + b).
Proof.
  intros A f k b H st. unfold t_bind, t_get_p, tick, get_p, gets. specialize (H (p_ st) st (le_n _)).
  destruct (f (p_ st) st) as [[o st'] n]. destruct H as [H1 [H2 H3]].
  split; [lia|]. split; [lia|]. nia.
Qed.
Ltac wi :=
  match goal with
  | |- forall _, _ => intro; wi
  | |- within _ (t_bind _ _) _ _ => eapply within_bind; wi
  | |- within _ (if _ then _ else _) _ _ => eapply within_if; wi
  | |- within _ (t_set_p _) _ _ => apply within_back
  | |- _ => apply within_of; bd
  end.
Lemma b_parse_authority : forall d, bounded (t_parse_authority d) 12 400.
Proof.
  intros d. unfold t_parse_authority. eapply bounded_weaken; [apply within_bounded; wi|cbn; lia|cbn; lia].
Qed.
#[local] Hint Resolve b_parse_authority : bd.
Lemma b_part_with : forall d t k b, bounded t k b -> bounded (t_parse_part_with d t) (12 + k) (500 + b).
Proof.
  intros d t k b H. unfold t_parse_part_with.
  eapply bounded_weaken; [bd|unfold L; cbn [length list_ascii_of_string]; lia|unfold L; cbn [length list_ascii_of_string]; lia].
Qed.
Lemma b_hier : forall d, bounded (t_parse_hier_part d) 12 528.
Proof. intros d. unfold t_parse_hier_part. exact (b_part_with d _ 0 28 b_rootless). Qed.
Lemma b_relative : forall d, bounded (t_parse_relative_part d) 12 528.
Proof. intros d. unfold t_parse_relative_part. exact (b_part_with d _ 0 28 b_noscheme). Qed.
#[local] Hint Resolve b_hier b_relative : bd.
Lemma b_parse_url_m : forall d s, within (length s) (t_parse_url_m d s) 24 640.
Proof.
  intros d s. unfold t_parse_url_m. eapply within_weaken; [wi|cbn; lia|cbn; lia].
Qed.
Lemma b_parse_origin_m : forall d, bounded (t_parse_origin_m d) 24 1000.
Proof. intros d. unfold t_parse_origin_m. bound. Qed.

Lemma run_within : forall (m : T unit) s k b, within (length s) m k b ->
  snd (t_run_ec m s) <= (12 + k) * length s + b.
Proof.
  intros m s k b H. specialize (H (pst0 s) (le_n _)). unfold t_run_ec. destruct (m (pst0 s)) as [[o st] n].
  destruct H as [H1 [H2 H3]]. cbn [snd]. cbn [pst0 p_] in H3. nia.
Qed.
(** If the whole text was taken, each character cost at least a step. *)
Lemma run_within_all : forall (m : T unit) s k b, within (length s) m k b ->
  (forall st pt, fst (m (pst0 s)) = (Val tt, st) -> p_ec st = None -> pt = p_pt st -> p_ st = []) ->
  forall pt, fst (t_run_ec m s) = Val pt -> length s <= snd (t_run_ec m s).
Proof.
  intros m s k b H D pt. specialize (H (pst0 s) (le_n _)). unfold t_run_ec. destruct (m (pst0 s)) as [[o st] n].
  destruct H as [H1 [H2 H3]]. cbn [fst snd] in *. cbn [pst0 p_] in H2. destruct o as [[]| | | |]; try discriminate.
  destruct (p_ec st) eqn:Q; [discriminate|]. intros E. specialize (D st pt eq_refl Q). injection E as <-.
  rewrite (D eq_refl) in H2. cbn in H2. lia.
Qed.

(** ** The functions *)

Lemma done_all : forall st st', (e <- done ;; if negb e then set_ec (Some err_syntax) else ret tt)%monad st = (Val tt, st') ->
  p_ec st' = None -> p_ st' = [].
Proof.
  intros st st'. unfold done, at_end, gets, bind, set_ec, modify, ret.
  destruct (p_ st) eqn:E; cbn [negb]; intros H Q; injection H as <-; [exact E|discriminate Q].
Qed.
Lemma tail_done : forall st st', parse_url_tail st = (Val tt, st') -> p_ec st' = None -> p_ st' = [].
Proof.
  intros st st' H Q. unfold parse_url_tail in H. unfold bind at 1 in H.
  destruct (parse_query st) as [[a| | | |] s1]; try discriminate H.
  unfold bind at 1, has_ec, gets in H. destruct (p_ec s1) eqn:E1; [injection H as <-; congruence|].
  unfold bind at 1 in H. destruct (parse_fragment s1) as [[b| | | |] s2]; try discriminate H.
  unfold bind at 1, has_ec, gets in H. destruct (p_ec s2) eqn:E2; [injection H as <-; congruence|].
  exact (done_all _ _ H Q).
Qed.
Lemma bind_val : forall S A B (m : M S A) (f : A -> M S B) st b st', bind m f st = (Val b, st') ->
  exists a s1, m st = (Val a, s1) /\ f a s1 = (Val b, st').
Proof. intros S A B m f st b st' H. unfold bind in H. destruct (m st) as [[a| | | |] s1]; try discriminate H. eauto. Qed.
Lemma url_done : forall d s st, parse_url_m d s (pst0 s) = (Val tt, st) -> p_ec st = None -> p_ st = [].
Proof.
  intros d s st H Q. unfold parse_url_m in H.
  apply bind_val in H. destruct H as [m [s1 [_ H]]]. apply bind_val in H. destruct H as [c [s2 [_ H]]]. destruct c.
  - apply bind_val in H. destruct H as [a [s3 [_ H]]]. apply bind_val in H. destruct H as [a' [s4 [_ H]]].
    exact (tail_done _ _ H Q).
  - apply bind_val in H. destruct H as [a [s3 [_ H]]]. apply bind_val in H. destruct H as [a' [s4 [_ H]]].
    apply bind_val in H. destruct H as [a2 [s5 [_ H]]]. apply bind_val in H. destruct H as [x [s6 [E H]]].
    unfold has_ec, gets in E. injection E as <- <-.
    destruct (p_ec s5) eqn:E5; [cbn in H; injection H as <-; congruence|]. exact (tail_done _ _ H Q).
Qed.
Lemma decoded_size_bounds : forall e l ec n,
  decoded_size_cost e l ec <= 4 * length l + 7 /\
  (snd (decoded_size_aux e l ec n) = None -> length l <= decoded_size_cost e l ec).
Proof.
  intros e l. remember (length l) as m eqn:Hm. revert l Hm.
  induction m as [m IH] using lt_wf_ind. intros [|c r] Hm ec n; cbn in Hm; [subst m; cbn; lia|].
  cbn [decoded_size_cost decoded_size_aux]. destruct (negb (Ascii.eqb c "%")).
  - destruct (is_special e c); [split; [lia|]; cbn; discriminate|].
    destruct (IH (length r) ltac:(lia) r eq_refl ec (S n)) as [H1 H2]. split; [lia|]. intros K. specialize (H2 K). lia.
  - cbv zeta. destruct (check_escape r ec) as [x|] eqn:X; [split; [lia|]; cbn; discriminate|].
    destruct r as [|a [|b r2]]; try discriminate X. cbn in Hm.
    destruct (IH (length r2) ltac:(lia) r2 eq_refl None (S n)) as [H1 H2]. split; [lia|].
    intros K. specialize (H2 K). lia.
Qed.
Lemma linear : forall (m : T unit) (p : P unit) k b, erases m p -> bounded m k b ->
  takes_linear_time (run_ec p) (t_run_ec m) (12 + k) b.
Proof. intros m p k b E B s. split; [exact (run_erases _ _ _ E)|]. apply run_within. apply within_of. exact B. Qed.
Lemma linear_url : forall d, takes_linear_time (parse_url d) (t_parse_url d) 36 640.
Proof.
  intros d s. split; [exact (run_erases _ _ _ (e_parse_url_m d s))|]. exact (run_within _ _ _ _ (b_parse_url_m d s)).
Qed.
Lemma reads_url : forall d, reads_everything (t_parse_url d).
Proof.
  intros d s pt. apply (run_within_all _ _ _ _ (b_parse_url_m d s)).
  intros st _ H Q _. apply (url_done d s st); [|exact Q]. rewrite <- H. symmetry. apply e_parse_url_m.
Qed.
Lemma linear_origin : forall d, takes_linear_time (parse_origin d) (t_parse_origin d) 36 1000.
Proof. intros d. exact (linear _ _ 24 1000 (e_parse_origin_m d) (b_parse_origin_m d)). Qed.
Lemma linear_validate : forall e, takes_linear_time (validate e) (t_validate e) 4 8.
Proof.
  intros e s. split; [reflexivity|]. cbn [t_validate snd]. pose proof (decoded_size_bounds e s None 0). lia.
Qed.
Lemma reads_validate : forall e, reads_everything (t_validate e).
Proof.
  intros e s x H. cbn [t_validate fst snd] in *. unfold validate, check, decoded_size in H.
  destruct (decoded_size_bounds e s None 0) as [_ K].
  destruct (snd (decoded_size_aux e s None 0)); [discriminate H|]. specialize (K eq_refl). lia.
Qed.
Lemma linear_pieces : forall d,
  takes_linear_time parse_scheme t_parse_scheme 12 1000 /\
  takes_linear_time (parse_authority_s d) (t_parse_authority_s d) 24 1000 /\
  takes_linear_time parse_userinfo_s t_parse_userinfo_s 12 1000 /\
  takes_linear_time (parse_hostname_s d) (t_parse_hostname_s d) 12 1000 /\
  takes_linear_time (parse_plain_hostname d) (t_parse_plain_hostname d) 12 1000 /\
  takes_linear_time match_port_s t_match_port_s 12 1000 /\
  takes_linear_time match_path_abempty t_match_path_abempty 12 1000 /\
  takes_linear_time match_path_absolute t_match_path_absolute 12 1000 /\
  takes_linear_time match_path_noscheme t_match_path_noscheme 12 1000 /\
  takes_linear_time match_path_rootless t_match_path_rootless 12 1000.
Proof.
  intros d. pose proof (b_plain_hostname d). pose proof (e_plain_hostname d).
  Local Ltac lin k := apply (linear _ _ k 1000); [er|eapply bounded_weaken; [bd|cbn; lia|cbn; lia]].
  split; [lin 0|]. split; [lin 12|]. split; [lin 0|]. split; [lin 0|]. split; [lin 0|].
  split; [lin 0|]. split; [lin 0|]. split; [lin 0|]. split; [lin 0|]. lin 0.
Qed.
