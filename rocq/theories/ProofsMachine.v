(** * ProofsMachine: arithmetic modulo 2^bits does what unbounded arithmetic does *)

From Verif Require Import Base ModelChar ModelParts ModelParse ModelView ModelUrl SpecChar SpecGrammar SpecLink SpecView SpecStore SpecUrl SpecSegments SpecHistory SpecBuild.
From Verif Require Import ProofsView ProofsMem ProofsUrl ProofsSetParse ProofsHistory ProofsBuild ModelMachine.

Section Env.
Variable E : env.
Variable K : nat.   (* arguments of resize are not larger than this *)
Hypothesis HE : env_ok E.
Hypothesis HK : max_size E + K + 2 <= size_max E.
Variable d : bool.
Hypothesis Hd : d = true \/ d = dbg E.
Notation T := (build d E).

Lemma addw_ok a b : a + b <= size_max E -> addw E a b = a + b.
Proof. intros H. unfold addw, modulus. apply Nat.mod_small. lia. Qed.
Lemma subw_ok a b : b <= a -> a <= size_max E -> subw E a b = a - b.
Proof.
  intros H Ha. unfold subw, modulus. replace (a + (S (size_max E) - b)) with (a - b + 1 * S (size_max E)) by lia.
  rewrite Nat.mod_add by lia. apply Nat.mod_small. lia.
Qed.

(** Ordered offsets. *)
Definition okpt (m : nat) (pt : parts) : Prop :=
  exists o0 o1 o2 o3 o4 o5 o6 o7 o8 ns np h, pt = mk_parts [o0; o1; o2; o3; o4; o5; o6; o7; o8] ns np h /\
    o0 <= o1 /\ o1 <= o2 /\ o2 <= o3 /\ o3 <= o4 /\ o4 <= o5 /\ o5 <= o6 /\ o6 <= o7 /\ o7 <= o8 /\ o8 <= m.
Definition inv (u : url) : Prop :=
  okpt (st_cap (u_st u)) (u_pt u) /\ st_size (u_st u) <= st_cap (u_st u) /\ st_cap (u_st u) <= max_size E /\
  (forall b, st_buf (u_st u) = Some b -> length b = st_cap (u_st u) + 1).

Definition machat {A} (u : url) (m1 m2 : U A) : Prop :=
  stuck (fst (m1 u)) \/ (m1 u = m2 u /\ forall a u', m1 u = (Val a, u') -> inv u').
Definition mach {A} (m1 m2 : U A) : Prop := forall u, inv u -> machat u m1 m2.

Lemma machat_bind {A B} u (m1 m2 : U A) (f1 f2 : A -> U B) : machat u m1 m2 ->
  (forall a u', m1 u = (Val a, u') -> inv u' -> machat u' (f1 a) (f2 a)) -> machat u (bind m1 f1) (bind m2 f2).
Proof.
  intros Hm Hf. unfold machat, bind. destruct Hm as [H|(H & Hi)].
  - left. destruct (m1 u) as [[a|e| | |] s']; cbn in *; try destruct H; exact I.
  - rewrite <- H. destruct (m1 u) as [[a|e| | |] s'] eqn:Em; try (left; exact I); [|right; split; [reflexivity|discriminate]].
    exact (Hf a s' eq_refl (Hi a s' eq_refl)).
Qed.
Lemma mach_bind {A B} (m1 m2 : U A) (f1 f2 : A -> U B) : mach m1 m2 -> (forall a, mach (f1 a) (f2 a)) -> mach (bind m1 f1) (bind m2 f2).
Proof. intros Hm Hf u Hu. apply machat_bind; [apply Hm, Hu|]. intros a u' _ Hi. apply Hf, Hi. Qed.
Lemma mach_ret {A} (a : A) : mach (ret a) (ret a).
Proof. intros u Hu. right. split; [reflexivity|]. intros x u' H. injection H as _ <-. exact Hu. Qed.
Lemma mach_throw {A} e : @mach A (throw e) (throw e).
Proof. intros u Hu. right. split; [reflexivity|]. discriminate. Qed.
Lemma mach_lift {A} (o1 o2 : outcome A) : oagree o1 o2 -> mach (lift o1) (lift o2).
Proof. intros [H|<-] u Hu; [left; exact H|right]. split; [reflexivity|]. intros x u' H. injection H as _ <-. exact Hu. Qed.
Lemma mach_lift_bind {A B} (o1 o2 : outcome A) (f1 f2 : A -> U B) : oagree o1 o2 -> (forall a, o1 = Val a -> mach (f1 a) (f2 a)) -> mach (bind (lift o1) f1) (bind (lift o2) f2).
Proof.
  intros H Hf u Hu. apply machat_bind; [apply (mach_lift o1 o2 H u Hu)|]. intros a u' Ha Hi. injection Ha as Ha ->. exact (Hf a Ha u' Hi).
Qed.
Lemma mach_observe {A} (f1 f2 : view -> outcome A) : (forall v, oagree (f1 v) (f2 v)) -> mach (observe f1) (observe f2).
Proof.
  intros H u Hu. unfold machat, observe. destruct (H (view_of u)) as [X| ->]; [left; exact X|right]. split; [reflexivity|].
  intros a u' Ha. injection Ha as _ <-. exact Hu.
Qed.
Lemma mach_gets {A} (f : url -> A) : mach (gets f) (gets f).
Proof. intros u Hu. right. split; [reflexivity|]. intros x u' H. injection H as _ <-. exact Hu. Qed.
Lemma mach_get_pt {A} (f1 f2 : parts -> U A) : (forall pt, okpt (max_size E) pt -> mach (f1 pt) (f2 pt)) -> mach (bind get_upt f1) (bind get_upt f2).
Proof.
  intros H u Hu. apply machat_bind; [apply mach_gets, Hu|]. intros a u' Ha Hi. injection Ha as <- <-. apply H; [|exact Hi].
  destruct Hu as ((o0 & o1 & o2 & o3 & o4 & o5 & o6 & o7 & o8 & ns & np & h & Hpt) & _ & Hc & _).
  exists o0, o1, o2, o3, o4, o5, o6, o7, o8, ns, np, h. split; [apply Hpt|]. lia.
Qed.
Lemma mach_get_st {A} (f1 f2 : url -> U A) : (forall u, inv u -> machat u (f1 u) (f2 u)) -> mach (bind get_st f1) (bind get_st f2).
Proof. intros H u Hu. exact (H u Hu). Qed.
Lemma mach_if {A} (b : bool) (m1 m2 n1 n2 : U A) : mach m1 m2 -> mach n1 n2 -> mach (if b then m1 else n1) (if b then m2 else n2).
Proof. destruct b; auto. Qed.
Lemma mach_quiet m : quiet m -> mach m (ret tt).
Proof.
  intros H u Hu. destruct (H u) as [X|X]; [left; exact X|right]. rewrite X. split; [reflexivity|]. intros a u' Ha. injection Ha as _ <-. exact Hu.
Qed.
Lemma mach_assert b : mach (uassert T b) (uassert E b).
Proof.
  apply mach_lift. cbn [dbg build]. destruct Hd as [-> | ->]; [|right; reflexivity]. destruct (dbg E); [right; reflexivity|apply og_assert].
Qed.
Lemma mach_dassert (m1 m2 : U unit) : quiet m1 -> mach m1 m2 -> mach (if dbg T then m1 else ret tt) (if dbg E then m2 else ret tt).
Proof.
  intros H Hm. cbn [dbg build]. destruct Hd as [-> | ->]; destruct (dbg E); try exact Hm; try apply mach_ret. apply mach_quiet, H.
Qed.

(** Lengths *)
Ltac okpt H := destruct H as (o0 & o1 & o2 & o3 & o4 & o5 & o6 & o7 & o8 & ns & np & h & -> & I0 & I1 & I2 & I3 & I4 & I5 & I6 & I7 & I8).
Lemma length_ok m pt id : okpt m pt -> m <= size_max E -> id < 8 -> w_length E pt id = plength pt id.
Proof.
  intros H Hm Hi. okpt H. unfold w_length, plength, off.
  do 8 (destruct id as [|id]; [cbn [offset nth Nat.add]; apply subw_ok; lia|]). lia.
Qed.
Lemma length2_ok m pt i j : okpt m pt -> m <= size_max E -> i <= j -> j < 9 -> w_length2 E pt i j = plength2 pt i j.
Proof.
  intros H Hm Hi Hj. okpt H. unfold w_length2, plength2, off.
  do 9 (destruct i as [|i]; [do 9 (destruct j as [|j]; [try lia; cbn [offset nth]; apply subw_ok; lia|]); lia|]). lia.
Qed.
Definition small_table (e : pct_encoding) : bool := forallb (fun x => nat_of_ascii x - 48 <=? 3) e.
Lemma needed_le e c : small_table e = true -> needed e c <= 3.
Proof.
  intros H. unfold needed. unfold small_table in H. rewrite forallb_forall in H.
  destruct (Nat.lt_ge_cases (nat_of_ascii c) (length e)) as [Hl|Hl].
  - apply Nat.leb_le, H, nth_In, Hl.
  - rewrite nth_overflow by exact Hl. apply Nat.leb_le. reflexivity.
Qed.
Lemma encoded_size_le e s : small_table e = true -> encoded_size e s <= 3 * length s.
Proof. intros H. induction s as [|c s IH]; cbn [encoded_size length]; [lia|]. pose proof (needed_le e c H). lia. Qed.
Lemma w_encoded_size_ok e s : small_table e = true -> 3 * length s <= size_max E -> w_encoded_size E e s = encoded_size e s.
Proof.
  intros He. induction s as [|c s IH]; intros H; cbn [w_encoded_size encoded_size length] in *; [reflexivity|].
  pose proof (encoded_size_le e s He) as L. pose proof (needed_le e c He).
  rewrite IH by lia. apply addw_ok. lia.
Qed.

(** ** Storage *)

Lemma reserve_ok n u : inv u -> n <= max_size E + K -> st_reserve T n u = w_st_reserve E n u.
Proof.
  intros (Hpt & Hs & Hc & Hb) Hn. unfold st_reserve, w_st_reserve. cbn [max_size alloc_ok build].
  destruct (n <=? st_cap (u_st u)) eqn:En; [reflexivity|]. apply Nat.leb_gt in En.
  rewrite (subw_ok (max_size E)) by lia.
  set (cap1 := if st_cap (u_st u) <? max_size E - st_cap (u_st u) then if 2 * st_cap (u_st u) <? n then n else 2 * st_cap (u_st u) else max_size E).
  assert (C : (if st_cap (u_st u) <? max_size E - st_cap (u_st u)
       then if addw E (st_cap (u_st u)) (st_cap (u_st u)) <? n then n else addw E (st_cap (u_st u)) (st_cap (u_st u)) else max_size E) = cap1 /\ cap1 <= max_size E + K).
  { unfold cap1. destruct (Nat.ltb_spec (st_cap (u_st u)) (max_size E - st_cap (u_st u))); [|split; [reflexivity|lia]].
    rewrite addw_ok by lia. replace (st_cap (u_st u) + st_cap (u_st u)) with (2 * st_cap (u_st u)) by lia. split; [reflexivity|].
    destruct (Nat.ltb_spec (2 * st_cap (u_st u)) n); lia. }
  destruct C as (-> & C). rewrite (addw_ok cap1 1) by lia. rewrite (addw_ok (st_size (u_st u)) 1) by lia.
  destruct (negb _); [reflexivity|]. destruct (st_buf (u_st u)) as [b|]; [|reflexivity].
  destruct (Nat.leb_spec (st_size (u_st u) + 1) (length b)); [|reflexivity].
  destruct (Nat.leb_spec (st_size (u_st u) + 1) (cap1 + 1)); [|reflexivity]. cbn [andb].
  destruct (Nat.ltb_spec (st_size (u_st u)) (cap1 + 1)); [reflexivity|lia].
Qed.

Lemma set_cell_length (b : list cell) i x : i < length b -> length (set_cell b i x) = length b.
Proof. intros H. unfold set_cell. rewrite !app_length, firstn_length, skipn_length. cbn [length]. lia. Qed.

Lemma okpt_mono m m' pt : okpt m pt -> m <= m' -> okpt m' pt.
Proof.
  intros (o0 & o1 & o2 & o3 & o4 & o5 & o6 & o7 & o8 & ns & np & h & Hpt) H. exists o0, o1, o2, o3, o4, o5, o6, o7, o8, ns, np, h. split; [apply Hpt|lia].
Qed.

Lemma reserve_inv n u a u' : inv u -> st_reserve T n u = (Val a, u') ->
  inv u' /\ n <= st_cap (u_st u') /\ u_pt u' = u_pt u /\ st_cap (u_st u) <= st_cap (u_st u').
Proof.
  intros (Hpt & Hs & Hc & Hb) H. unfold st_reserve in H. cbn [max_size alloc_ok build] in H.
  destruct (Nat.leb_spec n (st_cap (u_st u))) as [Hn|Hn].
  { injection H as _ <-. split; [exact (conj Hpt (conj Hs (conj Hc Hb)))|]. split; [exact Hn|]. split; [reflexivity|lia]. }
  set (cap1 := if st_cap (u_st u) <? max_size E - st_cap (u_st u) then if 2 * st_cap (u_st u) <? n then n else 2 * st_cap (u_st u) else max_size E) in H.
  destruct (alloc_ok E (st_allocs (u_st u)) (cap1 + 1)) eqn:Ea; [cbn [negb] in H|discriminate].
  pose proof (HE _ _ Ea) as Hm.
  assert (G : n <= cap1 /\ st_cap (u_st u) <= cap1).
  { unfold cap1 in *. destruct (Nat.ltb_spec (st_cap (u_st u)) (max_size E - st_cap (u_st u))); [|lia].
    destruct (Nat.ltb_spec (2 * st_cap (u_st u)) n); lia. }
  destruct (st_buf (u_st u)) as [b|] eqn:Eb.
  - destruct (Nat.leb_spec (st_size (u_st u) + 1) (length b)); [|discriminate].
    destruct (Nat.leb_spec (st_size (u_st u) + 1) (cap1 + 1)); [|discriminate]. cbn [andb] in H. injection H as _ <-.
    unfold inv. cbn [u_st u_pt st_cap st_size st_buf]. split; [|repeat split; lia].
    split; [apply (okpt_mono _ _ _ Hpt); lia|]. split; [lia|]. split; [lia|]. intros b' E'. injection E' as <-.
    rewrite set_cell_length; rewrite app_length, firstn_length, repeat_length; lia.
  - injection H as _ <-. unfold inv. cbn [u_st u_pt st_cap st_size st_buf]. split; [|repeat split; lia].
    split; [apply (okpt_mono _ _ _ Hpt); lia|]. split; [lia|]. split; [lia|]. intros b' E'. injection E' as <-. apply repeat_length.
Qed.

Lemma resize_ok n u : inv u -> n <= max_size E + K -> st_resize T n u = w_st_resize E n u.
Proof. intros Hi Hn. unfold st_resize, w_st_resize, bind. rewrite (reserve_ok n u Hi Hn). reflexivity. Qed.
Lemma resize_inv n u a u' : inv u -> st_resize T n u = (Val a, u') ->
  inv u' /\ n <= st_cap (u_st u') /\ u_pt u' = u_pt u /\ st_cap (u_st u) <= st_cap (u_st u').
Proof.
  intros Hi H. unfold st_resize, bind in H. destruct (st_reserve T n u) as [[p|e| | |] u1] eqn:R; try discriminate.
  destruct (reserve_inv n u p u1 Hi R) as (I1 & Hn & Hp & Hc). destruct p as [p|].
  2:{ injection H as _ <-. auto. }
  destruct (st_buf (u_st u1)) as [b|] eqn:Eb; [|discriminate]. destruct (Nat.ltb_spec n (length b)) as [Hl|]; [|discriminate].
  injection H as _ <-. destruct I1 as (J1 & J2 & J3 & J4). unfold inv. cbn [u_st u_pt st_cap st_size st_buf].
  split; [|auto]. split; [exact J1|]. split; [exact Hn|]. split; [exact J3|]. intros b' E'. injection E' as <-. rewrite set_cell_length by exact Hl. apply J4, Eb.
Qed.

(** ** Writing *)

Lemma set_cells_length (b : list cell) i (l : list cell) : i + length l <= length b -> length (set_cells b i l) = length b.
Proof. intros H. unfold set_cells. rewrite !app_length, firstn_length, skipn_length. lia. Qed.
Lemma inv_set_buf u b b' : inv u -> live_buf u = Some b -> length b' = length b -> inv (set_buf u b').
Proof.
  intros (J1 & J2 & J3 & J4) Hl He. unfold inv, set_buf. cbn [u_st u_pt st_cap st_size st_buf]. split; [exact J1|]. split; [exact J2|]. split; [exact J3|].
  intros x Hx. injection Hx as <-. rewrite He. apply J4. unfold live_buf in Hl. destruct (u_s u); [|discriminate]. destruct (st_buf (u_st u)); [|discriminate].
  destruct (_ =? _); [|discriminate]. exact Hl.
Qed.
Lemma mach_wr_str i s : mach (wr_str i s) (wr_str i s).
Proof.
  intros u Hu. right. split; [reflexivity|]. unfold wr_str. intros a u' H. destruct (live_buf u) as [b|] eqn:El; [|discriminate].
  destruct (Nat.leb_spec (i + length s) (length b)); [|discriminate]. injection H as _ <-. apply (inv_set_buf u b); [exact Hu|exact El|].
  apply set_cells_length. rewrite map_length. assumption.
Qed.
Lemma mach_wr i c : mach (wr i c) (wr i c).
Proof. apply mach_wr_str. Qed.
Lemma mach_memmove i j n : mach (memmove i j n) (memmove i j n).
Proof.
  intros u Hu. right. split; [reflexivity|]. unfold memmove. intros a u' H. destruct (live_buf u) as [b|] eqn:El; [|discriminate].
  destruct (Nat.leb_spec (j + n) (length b)); [|discriminate]. destruct (Nat.leb_spec (i + n) (length b)); [|discriminate]. cbn [andb] in H.
  injection H as _ <-. apply (inv_set_buf u b); [exact Hu|exact El|]. apply set_cells_length. rewrite firstn_length, skipn_length. lia.
Qed.

Lemma memmove_cap i j n u a u' : memmove i j n u = (Val a, u') -> st_cap (u_st u') = st_cap (u_st u).
Proof.
  unfold memmove. destruct (live_buf u); [|discriminate]. destruct (_ && _); [|discriminate]. intros H. injection H as _ <-. reflexivity.
Qed.
Lemma machat_set_upt u pt : inv u -> okpt (st_cap (u_st u)) pt -> machat u (set_upt pt) (set_upt pt).
Proof.
  intros (J1 & J2 & J3 & J4) H. right. split; [reflexivity|]. intros a u' Ha. injection Ha as _ <-. unfold inv. cbn [u_st u_pt]. auto.
Qed.
Lemma machat_set_s u p : inv u -> machat u (set_s p) (set_s p).
Proof. intros H. right. split; [reflexivity|]. intros a u' Ha. injection Ha as _ <-. exact H. Qed.
Lemma set_s_keeps p u a u' : set_s p u = (Val a, u') -> u_st u' = u_st u /\ u_pt u' = u_pt u.
Proof. intros H. injection H as _ <-. auto. Qed.

(** memmove, then new offsets *)
Lemma machat_shift u i j n pt x : inv u -> okpt (st_cap (u_st u)) pt ->
  machat u (bind (memmove i j n) (fun _ => bind (set_upt pt) (fun _ => ret x))) (bind (memmove i j n) (fun _ => bind (set_upt pt) (fun _ => @ret url nat x))).
Proof.
  intros Hu Hpt. apply machat_bind; [apply mach_memmove, Hu|]. intros a u1 H1 I1. apply machat_bind; [|intros b u2 _ I2; apply mach_ret, I2].
  apply machat_set_upt; [exact I1|]. rewrite (memmove_cap _ _ _ _ _ _ H1). exact Hpt.
Qed.
Lemma machat_grow u m i j n pt x : inv u -> m <= max_size E + K -> okpt m pt ->
  machat u (bind (st_resize T m) (fun p => bind (set_s p) (fun _ => bind (memmove i j n) (fun _ => bind (set_upt pt) (fun _ => ret x)))))
           (bind (w_st_resize E m) (fun p => bind (set_s p) (fun _ => bind (memmove i j n) (fun _ => bind (set_upt pt) (fun _ => @ret url nat x))))).
Proof.
  intros Hu Hm Hpt. apply machat_bind.
  - right. split; [apply resize_ok; assumption|]. intros a u' H. exact (proj1 (resize_inv m u a u' Hu H)).
  - intros p u1 H1 I1. destruct (resize_inv m u p u1 Hu H1) as (_ & Hc & _). apply machat_bind; [apply machat_set_s, I1|].
    intros b u2 H2 I2. apply machat_shift; [exact I2|]. destruct (set_s_keeps _ _ _ _ H2) as (-> & _). apply (okpt_mono _ _ _ Hpt Hc).
Qed.

Ltac offs := cbn [offset nth skipn firstn app map repeat Nat.add Nat.sub off] in *.
Ltac okpt_solve := do 12 eexists; (split; [reflexivity|]); lia.
Lemma mach_url_resize id n : id < 8 -> n <= K -> mach (url_resize T id n) (w_resize E id n).
Proof.
  intros Hid Hn. unfold url_resize, w_resize. apply mach_get_st. intros u Hu. cbv zeta.
  pose proof Hu as (Hpt & Hs & Hc & Hb). rewrite (length_ok _ _ id Hpt ltac:(lia) Hid). unfold usize, id_end.
  cbn [size_max build]. destruct (u_pt u) as [offs0 ns0 np0 h0] eqn:Eu.
  destruct Hpt as (o0 & o1 & o2 & o3 & o4 & o5 & o6 & o7 & o8 & ns & np & h & X & I0 & I1 & I2 & I3 & I4 & I5 & I6 & I7 & I8). injection X as -> -> -> ->.
  unfold plength, off. cbn [nseg nparam host].
  do 8 (destruct id as [|id]; [offs;
    match goal with |- machat _ (if ?a - ?b =? _ then _ else _) _ => set (len := a - b) in *; assert (Hlen : b + len = a) by (unfold len; lia); clearbody len end;
    destruct (Nat.eqb_spec len n); [apply mach_ret; exact Hu|];
    destruct (Nat.leb_spec n len);
    [ repeat rewrite subw_ok by lia; repeat rewrite addw_ok by lia; apply machat_shift; [exact Hu|okpt_solve]
    | repeat rewrite subw_ok by lia;
      destruct (Nat.ltb_spec (size_max E - o8) (n - len)); [apply mach_throw; exact Hu|];
      repeat rewrite addw_ok by lia; apply machat_grow; [exact Hu|lia|okpt_solve] ]|]). lia.
Qed.

Lemma mach_url_resize2 i j n : i < j -> j < 9 -> n <= K -> mach (url_resize2 T i j n) (w_resize2 E i j n).
Proof.
  intros Hi Hj Hn. unfold url_resize2, w_resize2. apply mach_get_st. intros u Hu. cbv zeta.
  pose proof Hu as (Hpt & Hs & Hc & Hb). rewrite (length2_ok _ _ i j Hpt ltac:(lia) ltac:(lia) Hj). unfold usize, id_end.
  cbn [size_max build]. destruct (u_pt u) as [offs0 ns0 np0 h0] eqn:Eu.
  destruct Hpt as (o0 & o1 & o2 & o3 & o4 & o5 & o6 & o7 & o8 & ns & np & h & X & I0 & I1 & I2 & I3 & I4 & I5 & I6 & I7 & I8). injection X as -> -> -> ->.
  unfold plength2, off. cbn [nseg nparam host].
  do 8 (destruct i as [|i]; [do 9 (destruct j as [|j]; [first [exfalso; lia | offs;
    match goal with |- machat _ (if (_ && (?a - ?b =? _)) then _ else _) _ => set (len := a - b) in *; assert (Hlen : b + len = a) by (unfold len; lia); clearbody len end;
    destruct ((n =? 0) && (len =? 0)); [apply mach_ret; exact Hu|];
    destruct (Nat.leb_spec n len);
    [ repeat rewrite subw_ok by lia; repeat rewrite addw_ok by lia; apply machat_shift; [exact Hu|okpt_solve]
    | repeat rewrite subw_ok by lia;
      destruct (Nat.ltb_spec (size_max E - o8) (n - len)); [apply mach_throw; exact Hu|];
      repeat rewrite addw_ok by lia; apply machat_grow; [exact Hu|lia|okpt_solve] ]]|]); lia|]). lia.
Qed.

Lemma mach_split id n : d = true -> id < 7 -> mach (url_split T id n) (w_split E id n).
Proof.
  intros Ed Hid. unfold url_split, w_split. intros u Hu. unfold get_upt. apply machat_bind; [apply mach_gets, Hu|].
  intros pt u' Ha _. injection Ha as <- <-. pose proof Hu as (Hpt & Hs & Hc & Hb).
  rewrite (length_ok _ _ id Hpt ltac:(lia) ltac:(lia)).
  destruct (Nat.leb_spec n (plength (u_pt u) id)) as [Hn|Hn].
  2:{ left. unfold bind, uassert, lift, oassert. cbn [dbg build]. rewrite Ed. exact I. }
  apply machat_bind; [apply mach_assert, Hu|]. intros a u1 H1 I1.
  assert (u1 = u) as ->. { unfold uassert, lift in H1. injection H1 as _ ->. reflexivity. }
  assert (G : w_psplit E (u_pt u) id n = psplit (u_pt u) id n /\ okpt (st_cap (u_st u)) (psplit (u_pt u) id n)).
  { unfold w_psplit, psplit. destruct (u_pt u) as [offs0 ns0 np0 h0] eqn:Eu.
    destruct Hpt as (o0 & o1 & o2 & o3 & o4 & o5 & o6 & o7 & o8 & ns & np & h & X & I0 & I1' & I2 & I3 & I4 & I5 & I6 & I7 & I8). injection X as -> -> -> ->.
    unfold plength, off in *. cbn [nseg nparam host] in *.
    do 7 (destruct id as [|id]; [offs; (split; [f_equal; rewrite addw_ok by lia; reflexivity|okpt_solve])|]). lia. }
  destruct G as (-> & G). apply machat_set_upt; assumption.
Qed.

End Env.
