(** * ProofsAtomic: a modifier that throws changes nothing

    No assumption is made about the state: this holds even of states that are
    not reachable. *)

From Verif Require Import Base ModelChar ModelParts ModelParse ModelView ModelUrl SpecUrl.

(** [nothrow]: never throws.  [same]: does not change the state.  [atomic]: if
    it throws, nothing has changed. *)
Definition nothrow {A} (m : U A) : Prop := forall u e u', m u <> (Exn e, u').
Definition pure {A} (m : U A) : Prop := forall u, snd (m u) = u.
Definition atomic {A} (m : U A) : Prop := forall u e u', m u = (Exn e, u') -> u' = u.

Lemma pure_atomic {A} (m : U A) : pure m -> atomic m.
Proof. intros H u e u' E. specialize (H u). rewrite E in H. auto. Qed.
Lemma nothrow_atomic {A} (m : U A) : nothrow m -> atomic m.
Proof. intros H u e u' E. exfalso. exact (H _ _ _ E). Qed.

Lemma nothrow_bind {A B} (m : U A) (f : A -> U B) : nothrow m -> (forall a, nothrow (f a)) -> nothrow (bind m f).
Proof.
  intros Hm Hf u e u' E. unfold bind in E. destruct (m u) as [[a|x| | |] u1] eqn:Em; try discriminate.
  - exact (Hf a u1 e u' E).
  - exact (Hm _ _ _ Em).
Qed.
Lemma pure_bind {A B} (m : U A) (f : A -> U B) : pure m -> (forall a, pure (f a)) -> pure (bind m f).
Proof.
  intros Hm Hf u. unfold bind. specialize (Hm u). destruct (m u) as [[a|x| | |] u1]; cbn in *; subst; try reflexivity. apply Hf.
Qed.
(** The two ways to compose. *)
Lemma atomic_first {A B} (m : U A) (f : A -> U B) : pure m -> (forall a, atomic (f a)) -> atomic (bind m f).
Proof.
  intros Hm Hf u e u' E. unfold bind in E. specialize (Hm u). destruct (m u) as [[a|x| | |] u1]; cbn in Hm; subst; try discriminate.
  - exact (Hf a u e u' E).
  - congruence.
Qed.
Lemma atomic_then {A B} (m : U A) (f : A -> U B) : atomic m -> (forall a, nothrow (f a)) -> atomic (bind m f).
Proof.
  intros Hm Hf u e u' E. unfold bind in E. destruct (m u) as [[a|x| | |] u1] eqn:Em; try discriminate.
  - exfalso. exact (Hf a u1 e u' E).
  - injection E as -> ->. exact (Hm _ _ _ Em).
Qed.

(** ** Building blocks *)

Lemma pure_ret {A} (a : A) : pure (ret a). Proof. intros u. reflexivity. Qed.
Lemma pure_lift {A} (o : outcome A) : pure (lift o). Proof. intros u. reflexivity. Qed.
Lemma pure_throw {A} e : pure (@throw url A e). Proof. intros u. reflexivity. Qed.
Lemma pure_get : pure get_st. Proof. intros u. reflexivity. Qed.
Lemma pure_gets {A} (f : url -> A) : pure (gets f). Proof. intros u. reflexivity. Qed.
Lemma pure_observe {A} (f : view -> outcome A) : pure (observe f). Proof. intros u. reflexivity. Qed.

Lemma nothrow_ret {A} (a : A) : nothrow (ret a). Proof. intros u e u'. discriminate. Qed.
Lemma nothrow_get : nothrow get_st. Proof. intros u e u'. discriminate. Qed.
Lemma nothrow_gets {A} (f : url -> A) : nothrow (gets f). Proof. intros u e u'. discriminate. Qed.
Lemma nothrow_modify f : nothrow (modify f). Proof. intros u e u'. discriminate. Qed.
Lemma nothrow_wr_str i l : nothrow (wr_str i l).
Proof. intros u e u'. unfold wr_str. destruct (live_buf u); [destruct (_ <=? _)|]; discriminate. Qed.
Lemma nothrow_memmove a b n : nothrow (memmove a b n).
Proof. intros u e u'. unfold memmove. destruct (live_buf u); [destruct (_ && _)|]; discriminate. Qed.
Lemma nothrow_observe_rdc i : nothrow (observe (fun v => rdc v i)).
Proof. intros u e u'. unfold observe, rdc. destruct (nth_error _ _) as [[c|]|]; discriminate. Qed.
Lemma nothrow_observe_vget i : nothrow (observe (fun v => vget v i)).
Proof.
  intros u e u'. unfold observe, vget, vget2, sub_view. destruct (_ && _); [|discriminate].
  destruct (all_init _); discriminate.
Qed.

#[export] Hint Resolve pure_ret pure_lift pure_throw pure_get pure_gets pure_observe : pure.
#[export] Hint Resolve nothrow_ret nothrow_get nothrow_gets nothrow_modify nothrow_wr_str nothrow_memmove nothrow_observe_rdc nothrow_observe_vget : nothrow.

Ltac nothrow1 :=
  match goal with
  | |- nothrow (bind _ _) => apply nothrow_bind; [|intros ?]
  | |- nothrow (if ?b then _ else _) => destruct b
  | |- nothrow (match ?b with _ => _ end) => destruct b
  | |- nothrow (let _ := _ in _) => cbv zeta
  | |- nothrow (wr _ _) => unfold wr
  | |- nothrow (set_upt _) => unfold set_upt
  | |- nothrow (set_s _) => unfold set_s
  | |- nothrow get_upt => unfold get_upt
  | _ => solve [auto with nothrow]
  end.
Ltac nothrows := repeat nothrow1.

Section E.
Context (E : env).

Lemma nothrow_assert b : nothrow (uassert E b).
Proof. intros u e u'. unfold uassert, lift, oassert. destruct (_ && _); discriminate. Qed.
Hint Resolve nothrow_assert : nothrow.
Lemma pure_assert b : pure (uassert E b).
Proof. intros u. reflexivity. Qed.
Hint Resolve pure_assert : pure.

Lemma nothrow_split i n : nothrow (url_split E i n).
Proof. unfold url_split. nothrows. Qed.
Hint Resolve nothrow_split : nothrow.

Lemma atomic_reserve n : atomic (st_reserve E n).
Proof.
  intros u e u' H. unfold st_reserve in H. destruct (n <=? _); [discriminate|].
  destruct (negb _); [congruence|]. destruct (st_buf (u_st u)); [destruct (_ && _)|]; discriminate.
Qed.
Lemma atomic_st_resize n : atomic (st_resize E n).
Proof.
  apply atomic_then; [apply atomic_reserve|]. intros [p|]; [|apply nothrow_ret].
  intros u e u'. cbv zeta. destruct (st_buf (u_st u)) as [l|]; [destruct (n <? length l)|]; discriminate.
Qed.

Ltac atomic1 :=
  match goal with
  | |- atomic (if ?b then _ else _) => destruct b
  | |- atomic (let _ := _ in _) => cbv zeta
  | |- atomic (bind get_st _) => apply atomic_first; [apply pure_get|intros ?]
  | |- atomic (bind get_upt _) => apply atomic_first; [apply pure_gets|intros ?]
  | |- atomic (bind uhas_authority _) => apply atomic_first; [apply pure_gets|intros ?]
  | |- atomic (bind (lift _) _) => apply atomic_first; [apply pure_lift|intros ?]
  | |- atomic (bind (uparse _) _) => apply atomic_first; [apply pure_lift|intros ?]
  | |- atomic (bind (uassert _ _) _) => apply atomic_first; [apply pure_lift|intros ?]
  | |- atomic (ret _) => apply nothrow_atomic, nothrow_ret
  | |- atomic (throw _) => apply pure_atomic, pure_throw
  end.
Ltac atomics := repeat atomic1.

Lemma atomic_resize i n : atomic (url_resize E i n).
Proof.
  unfold url_resize. atomics.
  - apply nothrow_atomic. nothrows.
  - apply atomic_then; [apply atomic_st_resize|]. intros p. nothrows.
Qed.
Lemma atomic_resize2 i j n : atomic (url_resize2 E i j n).
Proof.
  unfold url_resize2. atomics.
  - apply nothrow_atomic. nothrows.
  - apply atomic_then; [apply atomic_st_resize|]. intros p. nothrows.
Qed.

(** resize, then only writes *)
Ltac resizes := atomics; try (apply atomic_then; [first [apply atomic_resize|apply atomic_resize2]|intros ?; nothrows]).

Lemma pure_password_at : pure (assert_password_at E).
Proof. unfold assert_password_at. apply pure_bind; [apply pure_get|intros ?]. destruct (dbg E); [|apply pure_ret]. apply pure_bind; [apply pure_observe|intros ?; apply pure_assert]. Qed.
Lemma pure_user_slashes : pure (assert_user_slashes E).
Proof.
  unfold assert_user_slashes. destruct (dbg E); [|apply pure_ret]. apply pure_bind; [apply pure_observe|intros ?].
  repeat (apply pure_bind; [apply pure_assert|intros ?]). apply pure_assert.
Qed.
Ltac asserts := repeat first [atomic1|apply atomic_first; [first [apply pure_password_at|apply pure_user_slashes]|intros ?]].

Lemma atomic_set_encoded_userinfo s : atomic (set_encoded_userinfo E s).
Proof. unfold set_encoded_userinfo. resizes. Qed.
Lemma atomic_set_user s : atomic (set_user E s).
Proof. unfold set_user. asserts; resizes. Qed.
Lemma atomic_set_encoded_user s : atomic (set_encoded_user E s).
Proof. unfold set_encoded_user. asserts; try apply atomic_set_user; resizes. Qed.
Lemma atomic_set_password s : atomic (set_password E s).
Proof. unfold set_password. asserts; resizes. Qed.
Lemma atomic_set_encoded_password s : atomic (set_encoded_password E s).
Proof. unfold set_encoded_password. asserts; try apply atomic_set_password; resizes. Qed.
Lemma atomic_set_port s : atomic (set_port E s).
Proof.
  unfold set_port. atomics.
  - apply atomic_first; [|intros ?; resizes].
    destruct (dbg E); [|apply pure_ret]. apply pure_bind; [apply pure_observe|intros ?; apply pure_assert].
  - resizes.
  - resizes.
  - resizes.
Qed.

(** Shrinking never throws. *)
Lemma shrink_nothrow i n u : n <= plength (u_pt u) i -> forall e u', url_resize E i n u <> (Exn e, u').
Proof.
  intros H e u' K. unfold url_resize in K. unfold bind at 1, get_st in K. cbv zeta in K.
  destruct (plength (u_pt u) i =? n); [discriminate|]. apply Nat.leb_le in H. rewrite H in K.
  revert K. match goal with |- ?m u = _ -> _ => assert (nothrow m) as G by nothrows end. apply G.
Qed.
Lemma nothrow_remove_password : nothrow (set_password E []).
Proof.
  intros u e u' H. unfold set_password in H. unfold bind at 1, get_upt, gets in H. cbn [is_empty] in H.
  destruct (plength (u_pt u) id_password =? 0) eqn:El; [discriminate|]. apply Nat.eqb_neq in El.
  unfold bind at 1 in H. pose proof (pure_password_at u) as P1. destruct (assert_password_at E u) as [[x|x| | |] u1] eqn:E1; cbn in P1; subst u1; try discriminate.
  2:{ assert (nothrow (assert_password_at E)) as G by (unfold assert_password_at; nothrows). exact (G _ _ _ E1). }
  unfold bind at 1 in H. pose proof (pure_user_slashes u) as P2. destruct (assert_user_slashes E u) as [[y|y| | |] u1] eqn:E2; cbn in P2; subst u1; try discriminate.
  2:{ assert (nothrow (assert_user_slashes E)) as G by (unfold assert_user_slashes; nothrows). exact (G _ _ _ E2). }
  destruct (plength (u_pt u) id_user =? 2).
  - unfold bind in H. destruct (url_resize E id_password 0 u) as [[z|z| | |] u1] eqn:E3; try discriminate.
    eapply shrink_nothrow; [|exact E3]. lia.
  - unfold bind in H. destruct (url_resize E id_password 1 u) as [[z|z| | |] u1] eqn:E3; try discriminate.
    + exact (nothrow_wr_str _ _ _ _ _ H).
    + eapply shrink_nothrow; [|exact E3]. lia.
Qed.

Lemma atomic_set_host s : atomic (set_host E s).
Proof.
  unfold set_host. atomics.
  - apply atomic_first; [|intros ?; resizes].
    destruct (dbg E); [|apply pure_ret]. apply pure_bind; [apply pure_observe|intros ?; apply pure_assert].
  - resizes.
  - apply atomic_then; [|intros ?; apply nothrow_modify]. unfold store_host. resizes.
Qed.

Theorem run_atomic o : atomic (run E o).
Proof.
  destruct o; cbn [run].
  - unfold set_encoded_url. atomics.
    + apply atomic_then; [apply atomic_resize2|intros ?; nothrows].
    + apply atomic_then; [apply atomic_st_resize|]. intros ?. nothrows.
  - unfold set_encoded_origin. resizes.
  - unfold set_scheme. resizes.
  - unfold set_encoded_authority. resizes.
  - apply atomic_set_encoded_userinfo.
  - unfold set_userinfo_part. atomics; apply atomic_set_encoded_userinfo.
  - apply atomic_set_user.
  - apply atomic_set_encoded_user.
  - apply atomic_set_password.
  - apply atomic_set_encoded_password.
  - unfold set_password_part. destruct (is_empty s); [apply atomic_set_password|].
    destruct (Nat.eqb_spec (length s) 1) as [Hl|]; [|apply atomic_set_encoded_password]. atomics; [resizes|].
    apply atomic_then; [apply atomic_resize2|]. intros ?. nothrows.
    destruct s as [|c [|]]; try discriminate. cbn [skipn]. exact nothrow_remove_password.
  - apply atomic_set_host.
  - unfold set_encoded_host. atomics; [apply atomic_set_host|].
    apply atomic_then; [|intros ?; apply nothrow_modify]. unfold store_host. resizes.
  - apply atomic_set_port.
  - unfold set_port_n. atomics. apply atomic_set_port.
  - unfold set_port_part. atomics; try apply atomic_set_port. resizes.
  - unfold set_encoded_path. resizes.
  - unfold set_query. resizes.
  - unfold set_encoded_query. resizes.
  - unfold set_query_part. resizes.
  - unfold set_fragment. resizes.
  - unfold set_encoded_fragment. resizes.
  - unfold set_fragment_part. resizes.
  - apply nothrow_atomic. unfold normalize, normalize_scheme. nothrows.
    assert (G : forall n p, nothrow (normalize_loop n p)); [|apply G].
    induction n as [|n IH]; intros p; cbn [normalize_loop]; nothrows.
Qed.

End E.
