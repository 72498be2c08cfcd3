(** Collision pairs of references that wrap around, and of unknown ones. *)
From Verif Require Import Base Lin LinFacts Mjx Typing Component SpecComponent SpecJoint SpecHistory SpecTyping SpecCollision SpecWrap Witness.
From Verif Require Import ComponentFacts ComponentFacts2 ApiSteps JointFacts BindFacts BindFacts2 BindFacts3 CoreFacts CollisionPairs ProblemFacts CompThms CompThms2 BindThms2.
Open Scope Z_scope.
#[local] Arguments update_model : simpl never.
#[local] Arguments jax_component : simpl never.

Lemma np_idx_selects m (l : list Z) z b : List.length l = m_nbody m -> picks m z b -> np_idx l z = Ok (ent l b).
Proof.
  intros L [[B0 B1] H]. destruct H as [->| ->]; [apply np_idx_in; lia|].
  unfold np_idx. replace (b - Z.of_nat (m_nbody m) <? 0) with true by (symmetry; apply Z.ltb_lt; lia).
  rewrite L. replace (b - Z.of_nat (m_nbody m) + Z.of_nat (m_nbody m)) with b by lia.
  replace ((b <? 0) || (Z.of_nat (m_nbody m) <=? b))%bool with false.
  2: { symmetry. apply orb_false_intro; [apply Z.ltb_ge|apply Z.leb_gt]; lia. }
  unfold ent. destruct (nth_error l (Z.to_nat b)) as [x|] eqn:E.
  - now rewrite (nth_error_nth _ _ 0 E).
  - apply nth_error_None in E. lia.
Qed.
Lemma selects_unique m z b b' : picks m z b -> picks m z b' -> b = b'.
Proof. unfold picks, is_body. intros [H1 H2] [H3 H4]. lia. Qed.

Section WithModel.
Variable m : mjmodel.
Hypothesis Hwf : wf_bodies m.

Lemma valid_selects z1 z2 b1 b2 : picks m z1 b1 -> picks m z2 b2 -> validate_body_pair m z1 z2 = validate_body_pair m b1 b2.
Proof.
  intros H1 H2. destruct Hwf as (L1 & _). unfold validate_body_pair.
  rewrite !(np_idx_selects m _ _ _ L1 H1), !(np_idx_selects m _ _ _ L1 H2).
  destruct H1 as [B1 _], H2 as [B2 _]. unfold is_body in *.
  now rewrite (np_idx_in _ b1), (np_idx_in _ b2) by lia.
Qed.
Lemma geoms_selects z b : picks m z b -> body_geoms m z = body_geoms m b.
Proof.
  intros H. destruct Hwf as (_ & _ & L3 & L4 & _). unfold body_geoms.
  rewrite (np_idx_selects m _ _ _ L3 H), (np_idx_selects m _ _ _ L4 H). destruct H as [B _]. unfold is_body in B.
  now rewrite !np_idx_in by lia.
Qed.

Definition pair_of (excl : list (Z * Z)) (z1 z2 : Z) (p : Z * Z) : Prop :=
  ~ In (sorted_pair z1 z2) excl /\ exists b1 b2, picks m z1 b1 /\ picks m z2 b2 /\ may_collide m b1 b2 /\
  exists g1 g2, (is_geom m g1 /\ ent (m_geom_bodyid m) g1 = b1) /\ (is_geom m g2 /\ ent (m_geom_bodyid m) g2 = b2) /\
    geom_pair_ok m g1 g2 p.
Lemma may_differ b : ~ may_collide m b b.
Proof. intros [H _]. congruence. Qed.

Lemma pair_ok excl x y z1 z2 b1 b2 : body2id m x = Ok z1 -> body2id m y = Ok z2 -> picks m z1 b1 -> picks m z2 b2 ->
  forall acc, NoDup acc ->
  exists acc', add_body_pair m excl x y acc = Ok acc' /\ NoDup acc' /\
    forall p, In p acc' <-> In p acc \/ pair_of excl z1 z2 p.
Proof.
  intros Hx Hy H1 H2 acc Hn. unfold add_body_pair. rewrite Hx, Hy. cbn [bind]. unfold pair_of.
  destruct (z1 =? z2) eqn:Eb.
  { apply Z.eqb_eq in Eb. subst z2. exists acc. split; [reflexivity|]. split; [exact Hn|]. intros p. split; [tauto|].
    intros [H|(_ & c1 & c2 & S1 & S2 & M & _)]; [exact H|]. rewrite (selects_unique _ _ _ _ S1 S2) in M. now apply may_differ in M. }
  destruct (zpair_mem (sorted_pair z1 z2) excl) eqn:Ee.
  { apply zpair_mem_in in Ee. exists acc. split; [reflexivity|]. split; [exact Hn|]. intros p. tauto. }
  assert (Ne : ~ In (sorted_pair z1 z2) excl) by (intros H; apply zpair_mem_in in H; congruence).
  rewrite (valid_selects z1 z2 b1 b2 H1 H2), (geoms_selects _ _ H1), (geoms_selects _ _ H2).
  pose proof (proj1 H1) as B1. pose proof (proj1 H2) as B2.
  destruct (body_valid m Hwf b1 b2 B1 B2) as (v & Hv & Hc). rewrite Hv. cbn [bind]. destruct v; cbn [negb].
  - destruct (body_geoms_ok m Hwf b1 B1) as (gs1 & E1 & G1). destruct (body_geoms_ok m Hwf b2 B2) as (gs2 & E2 & G2).
    rewrite E1, E2. cbn [bind].
    destruct (add_geoms1_ok m Hwf gs1 gs2) with (acc := acc) as (acc' & E & Hn' & Hin); auto.
    { apply Forall_forall. intros g Hg. now apply G1 in Hg. }
    { apply Forall_forall. intros g Hg. now apply G2 in Hg. }
    exists acc'. split; [exact E|]. split; [exact Hn'|]. intros p. rewrite Hin. split.
    + intros [H|(g1 & g2 & Ha & Hb & Hp)]; [now left|right]. apply G1 in Ha. apply G2 in Hb.
      split; [exact Ne|]. exists b1, b2. split; [exact H1|]. split; [exact H2|]. split; [now apply Hc|]. exists g1, g2. tauto.
    + intros [H|(_ & c1 & c2 & S1 & S2 & _ & g1 & g2 & Ha & Hb & Hp)]; [now left|right].
      rewrite (selects_unique _ _ _ _ S1 H1) in Ha. rewrite (selects_unique _ _ _ _ S2 H2) in Hb.
      exists g1, g2. rewrite G1, G2. tauto.
  - exists acc. split; [reflexivity|]. split; [exact Hn|]. intros p. split; [tauto|].
    intros [H|(_ & c1 & c2 & S1 & S2 & Hmc & _)]; [exact H|].
    rewrite (selects_unique _ _ _ _ S1 H1), (selects_unique _ _ _ _ S2 H2) in Hmc. apply Hc in Hmc. discriminate.
Qed.

Definition numbered (bs : list cbody) (zs : list Z) : Prop :=
  Forall2 (fun x z => body2id m x = Ok z /\ exists b, picks m z b) bs zs.
Lemma with_ok excl x z1 b1 : body2id m x = Ok z1 -> picks m z1 b1 -> forall ys zs, numbered ys zs ->
  forall acc, NoDup acc ->
  exists acc', add_body_with m excl x ys acc = Ok acc' /\ NoDup acc' /\
    forall p, In p acc' <-> In p acc \/ exists z2, In z2 zs /\ pair_of excl z1 z2 p.
Proof.
  intros Hx H1 ys zs Hr. induction Hr as [|y z2 ys zs [Hy [b2 H2]] _ IH]; intros acc Hn; cbn [add_body_with].
  - exists acc. split; [reflexivity|]. split; [exact Hn|]. intros p. split; [auto|]. intros [H|(b & [] & _)]. exact H.
  - destruct (pair_ok excl x y z1 z2 b1 b2 Hx Hy H1 H2 acc Hn) as (acc1 & E1 & Hn1 & Hin1). rewrite E1. cbn [bind].
    destruct (IH acc1 Hn1) as (acc' & E & Hn' & Hin). exists acc'. split; [exact E|]. split; [exact Hn'|].
    intros p. rewrite Hin, Hin1. split.
    + intros [[H|H]|(b & Ha & Hb)]; [now left|right; exists z2; cbn; tauto|right; exists b; cbn; tauto].
    + intros [H|(b & [<-|Ha] & Hb)]; [tauto|tauto|right; eauto].
Qed.
Lemma all_ok excl bs zs : numbered bs zs -> forall acc, NoDup acc ->
  exists acc', add_all_bodies m excl bs acc = Ok acc' /\ NoDup acc' /\
    forall p, In p acc' <-> In p acc \/ exists z1 z2, later_pair zs z1 z2 /\ pair_of excl z1 z2 p.
Proof.
  intros Hr. induction Hr as [|x b bs ids [Hx [r Hb]] Hr IH]; intros acc Hn; cbn [add_all_bodies].
  - exists acc. split; [reflexivity|]. split; [exact Hn|]. intros p. split; [auto|]. intros [H|(b1 & b2 & [] & _)]. exact H.
  - destruct (with_ok excl x b r Hx Hb bs ids Hr acc Hn) as (acc1 & E1 & Hn1 & Hin1). rewrite E1. cbn [bind].
    destruct (IH acc1 Hn1) as (acc' & E & Hn' & Hin). exists acc'. split; [exact E|]. split; [exact Hn'|].
    intros p. rewrite Hin, Hin1. cbn [later_pair]. split.
    + intros [[H|(b2 & H1 & H2)]|(b1 & b2 & H1 & H2)]; [now left|right; exists b, b2; tauto|right; exists b1, b2; tauto].
    + intros [H|(b1 & b2 & [[-> H1]|H1] & H2)]; [tauto|left; right; eauto|right; eauto].
Qed.
Lemma pair_of_comm excl z1 z2 p : pair_of excl z1 z2 p -> pair_of excl z2 z1 p.
Proof.
  intros (H1 & b1 & b2 & S1 & S2 & H3 & g1 & g2 & Ha & Hb & Hc & Hp). split; [now rewrite sorted_pair_comm|].
  exists b2, b1. split; [exact S2|]. split; [exact S1|].
  split; [now apply may_collide_comm|]. exists g2, g1. split; [exact Hb|]. split; [exact Ha|].
  split; [now apply compatible_comm|]. now rewrite sorted_pair_comm.
Qed.
Lemma numbers_generated bs zs raw ex exs : numbered bs zs -> excl_resolved m raw ex ->
  exclude_set m raw [] = Ok exs ->
  exists ps, generate_collision_pairs m bs exs = Ok ps /\ NoDup ps /\
    forall p, In p ps <-> exists g1 g2, to_check_numbers m zs ex g1 g2 /\ p = (Z.min g1 g2, Z.max g1 g2).
Proof.
  intros Hr Hx He. destruct (exclude_set_ok m raw ex Hx []) as (exs' & E' & Hin'). rewrite He in E'. injection E' as <-.
  destruct (all_ok exs bs zs Hr [] (NoDup_nil _)) as (ps & E & Hn & Hin). exists ps. split; [exact E|].
  split; [exact Hn|]. intros p. rewrite Hin.
  assert (Hex : forall b1 b2, In (sorted_pair b1 b2) exs <-> In (b1, b2) ex \/ In (b2, b1) ex).
  { intros b1 b2. rewrite Hin'. rewrite <- sorted_excl. cbn. split; [intros [[]|H]; exact H|auto]. }
  split.
  - intros [[]|(z1 & z2 & Hl & Hnx & b1 & b2 & S1 & S2 & Hmc & g1 & g2 & (G1 & G1') & (G2 & G2') & Hc & ->)].
    apply later_pair_in in Hl. rewrite Hex in Hnx. exists g1, g2. split; [|reflexivity].
    exists z1, z2, b1, b2. tauto.
  - intros (g1 & g2 & (z1 & z2 & b1 & b2 & I1 & I2 & X1 & X2 & S1 & S2 & Hmc & G1 & G1' & G2 & G2' & Hc) & ->). right.
    assert (B : pair_of exs z1 z2 (Z.min g1 g2, Z.max g1 g2)).
    { split; [rewrite Hex; tauto|]. exists b1, b2. split; [exact S1|]. split; [exact S2|]. split; [exact Hmc|].
      exists g1, g2. unfold geom_pair_ok, sorted_pair. tauto. }
    assert (Hne : z1 <> z2).
    { intros ->. rewrite (selects_unique _ _ _ _ S1 S2) in Hmc. now apply may_differ in Hmc. }
    destruct (in_later_pair zs z1 z2 I1 I2 Hne) as [H|H]; [exists z1, z2; tauto|].
    exists z2, z1. split; [exact H|]. now apply pair_of_comm.
Qed.
Lemma numbers_comm zs ex g1 g2 : to_check_numbers m zs ex g1 g2 -> to_check_numbers m zs ex g2 g1.
Proof.
  intros (z1 & z2 & b1 & b2 & H). exists z2, z1, b2, b1. pose proof (may_collide_comm m b1 b2). pose proof (compatible_comm m g1 g2). intuition.
Qed.
End WithModel.

Lemma number_body2id m x z : wf_names m -> number m x z -> body2id m x = Ok z.
Proof.
  intros Hw H. destruct H as [i|s i H|s H]; cbn; [reflexivity|f_equal; now apply (name2id_spec m OBody s i Hw)|].
  f_equal. destruct (Z.eq_dec (name2id m OBody s) (-1)) as [E|E]; [exact E|].
  exfalso. apply (H (name2id m OBody s)). now apply (name2id_spec m OBody s _ Hw).
Qed.

Lemma numbered_of m bs zs : wf_names m -> Forall2 (number m) bs zs -> Forall (fun z => exists b, picks m z b) zs -> numbered m bs zs.
Proof.
  intros Hw H. induction H as [|x z bs zs Hx _ IH]; intros HF; [constructor|].
  constructor; [split; [now apply number_body2id|exact (Forall_inv HF)]|]. apply IH. exact (Forall_inv_tail HF).
Qed.
Lemma excl_numbered m er ex : wf_names m -> Forall2 (number2 m) er ex -> excl_resolved m er ex.
Proof.
  intros Hw H. unfold excl_resolved. eapply Forall2_impl; [|exact H]. intros [x y] [a b] [H1 H2]. cbn in *.
  split; now apply number_body2id.
Qed.
Lemma references name gain gf sdg dm bs er n c os m zs ex :
  new_self_collision name gain gf sdg dm bs er n = Ok c -> bs <> [] -> Forall api_op os ->
  wf_bodies m -> wf_names m -> Forall2 (number m) bs zs -> Forall (fun z => exists b, picks m z b) zs -> Forall2 (number2 m) er ex ->
  exists ps, fst (update_model m (history os c)) = Ok tt /\ checks (snd (update_model m (history os c))) ps /\ NoDup ps /\
    forall g1 g2, In (g1, g2) ps <-> g1 < g2 /\ to_check_numbers m zs ex g1 g2.
Proof.
  intros Hn Hne Ho Hb Hw H1 HF H2. destruct (self_history _ _ _ _ _ _ _ _ _ os Hn Hne Ho) as (s & exs & ps & k & E).
  apply (numbered_of m) in H1; [|exact Hw|exact HF]. apply (excl_numbered m) in H2; [|exact Hw].
  destruct (exclude_set_ok m er ex H2 []) as (exs' & E' & _).
  destruct (numbers_generated m Hb bs zs er ex exs' H1 H2 E') as (ps' & E2 & N & I). exists ps'.
  assert (B := self_bind m _ _ _ E). cbn [sc_excl_raw sc_bodies sc_n] in B. rewrite E' in B.
  assert (L : listed m bs = bs) by (destruct bs; [contradiction|reflexivity]). rewrite L, E2 in B. cbn zeta in B. rewrite B.
  split; [reflexivity|]. split; [do 2 eexists; split; reflexivity|]. split; [exact N|].
  intros g1 g2. rewrite I. split.
  - intros (a & b & T & P). assert (a <> b).
    { destruct T as (z1 & z2 & b1 & b2 & _ & _ & _ & _ & _ & _ & M & _ & <- & _ & <- & _). intros ->. now apply may_differ in M. }
    injection P as -> ->. destruct (Z.min_spec a b) as [[L1 ->]|[L1 ->]], (Z.max_spec a b) as [[L' ->]|[L' ->]]; try lia; (split; [lia|]); auto.
    now apply numbers_comm.
  - intros [L1 T]. exists g1, g2. split; [exact T|]. f_equal; lia.
Qed.

(** *** Failures *)
Lemma with_fails m excl x y : (forall acc, exists e, add_body_pair m excl x y acc = Err e) ->
  forall ys, In y ys -> forall acc, exists e, add_body_with m excl x ys acc = Err e.
Proof.
  intros H. induction ys as [|w ys IH]; intros Hin acc; [destruct Hin|]. cbn [add_body_with].
  destruct Hin as [->|Hin].
  - destruct (H acc) as [e E]. rewrite E. now exists e.
  - destruct (add_body_pair m excl x w acc) as [acc'|e]; cbn [bind]; [now apply IH|now exists e].
Qed.
(** [x] stands before [y]. *)
Definition before {A} (x y : A) (l : list A) : Prop := exists l1 l2 l3, l = l1 ++ x :: l2 ++ y :: l3.
Lemma all_fails m excl x y : (forall acc, exists e, add_body_pair m excl x y acc = Err e) ->
  forall bs, before x y bs -> forall acc, exists e, add_all_bodies m excl bs acc = Err e.
Proof.
  intros H bs (l1 & l2 & l3 & ->). induction l1 as [|w l1 IH]; intros acc; cbn [app add_all_bodies].
  - destruct (with_fails m excl x y H (l2 ++ y :: l3)) with (acc := acc) as [e E]; [apply in_or_app; right; now left|].
    rewrite E. now exists e.
  - destruct (add_body_with m excl w _ acc) as [acc'|e]; cbn [bind]; [apply IH|now exists e].
Qed.
Lemma two_positions {A} (x y : A) l : In x l -> In y l -> x <> y -> before x y l \/ before y x l.
Proof.
  intros Hx Hy Hn. apply in_split in Hx. destruct Hx as (l1 & l2 & ->). apply in_app_or in Hy. destruct Hy as [Hy|[Hy|Hy]].
  - right. apply in_split in Hy. destruct Hy as (a & b & ->). exists a, b, l2. now rewrite <- app_assoc.
  - congruence.
  - left. apply in_split in Hy. destruct Hy as (a & b & ->). now exists l1, a, b.
Qed.
Lemma np_idx_err {A} (l : list A) i e : np_idx l i = Err e -> e = IndexError.
Proof. unfold np_idx. destruct (_ || _)%bool; [congruence|]. destruct (nth_error _ _); congruence. Qed.
Lemma bind_err {A B} (r : res A) (f : A -> res B) e : bind r f = Err e -> r = Err e \/ exists a, r = Ok a /\ f a = Err e.
Proof. destruct r as [a|e']; cbn; [right; eauto|left; congruence]. Qed.
Ltac errs := repeat match goal with
  | H : bind ?r ?f = Err _ |- _ => apply bind_err in H; destruct H as [H|(? & ? & H)]
  | H : np_idx _ _ = Err _ |- _ => apply np_idx_err in H; exact H
  | H : Ok _ = Err _ |- _ => discriminate H
  end.
Lemma valid_err m b1 b2 e : validate_body_pair m b1 b2 = Err e -> e = IndexError.
Proof. unfold validate_body_pair. intros H. errs. Qed.
Lemma geoms_err m b e : body_geoms m b = Err e -> e = IndexError.
Proof. unfold body_geoms. intros H. errs. Qed.
Lemma geom_err m g1 g2 e : validate_geom_pair m g1 g2 = Err e -> e = IndexError.
Proof. unfold validate_geom_pair. intros H. errs. destruct (negb _); errs. Qed.
Lemma geoms2_err m g1 gs : forall acc e, add_geoms2 m g1 gs acc = Err e -> e = IndexError.
Proof. induction gs as [|g gs IH]; cbn [add_geoms2]; intros acc e H; [discriminate|]. errs; [now apply geom_err in H|eauto]. Qed.
Lemma geoms1_err m gs1 gs2 : forall acc e, add_geoms1 m gs1 gs2 acc = Err e -> e = IndexError.
Proof. induction gs1 as [|g gs IH]; cbn [add_geoms1]; intros acc e H; [discriminate|]. errs; [now apply geoms2_err in H|eauto]. Qed.
Lemma pair_err m excl x y acc e : add_body_pair m excl x y acc = Err e -> e = IndexError \/ body2id m x = Err e \/ body2id m y = Err e.
Proof.
  unfold add_body_pair. intros H. errs; [tauto|tauto|]. destruct (_ =? _); [discriminate|]. destruct (zpair_mem _ _); [discriminate|].
  errs; [left; now apply valid_err in H|]. destruct (negb _); [discriminate|].
  errs; left; [now apply geoms_err in H|now apply geoms_err in H|now apply geoms1_err in H].
Qed.
Lemma with_err m excl x ys : forall acc e, add_body_with m excl x ys acc = Err e ->
  e = IndexError \/ exists y, In y (x :: ys) /\ body2id m y = Err e.
Proof.
  induction ys as [|y ys IH]; cbn [add_body_with]; intros acc e H; [discriminate|]. errs.
  - apply pair_err in H. destruct H as [H|[H|H]]; [now left|right; exists x; cbn; tauto|right; exists y; cbn; tauto].
  - apply IH in H. destruct H as [H|(w & [->|Hw] & E)]; [now left|right; exists w; cbn; tauto|right; exists w; cbn; tauto].
Qed.
Lemma all_err m excl bs : forall acc e, add_all_bodies m excl bs acc = Err e -> e = IndexError \/ exists y, In y bs /\ body2id m y = Err e.
Proof.
  induction bs as [|x bs IH]; cbn [add_all_bodies]; intros acc e H; [discriminate|]. errs.
  - now apply with_err in H.
  - apply IH in H. destruct H as [H|(w & Hw & E)]; [now left|right; exists w; cbn; tauto].
Qed.
Lemma np_idx_out m (l : list Z) z : List.length l = m_nbody m -> (forall b, ~ picks m z b) -> np_idx l z = Err IndexError.
Proof.
  intros L H. unfold np_idx. rewrite L.
  destruct (z <? 0) eqn:E; (match goal with |- (if ?c then _ else _) = _ => assert (c = true) as ->; [|reflexivity] end).
  - apply Z.ltb_lt in E. destruct (z + Z.of_nat (m_nbody m) <? 0) eqn:E2; [reflexivity|]. apply Z.ltb_ge in E2. exfalso.
    apply (H (z + Z.of_nat (m_nbody m))). unfold picks, is_body. lia.
  - apply Z.ltb_ge in E. apply orb_true_intro. right. apply Z.leb_le. destruct (Z_lt_le_dec z (Z.of_nat (m_nbody m))); [|lia]. exfalso.
    apply (H z). unfold picks, is_body. lia.
Qed.
Lemma out_of_range name gain gf sdg dm bs er n c os m zs ex z1 z2 :
  new_self_collision name gain gf sdg dm bs er n = Ok c -> bs <> [] -> Forall api_op os ->
  wf_bodies m -> wf_names m -> Forall2 (number m) bs zs -> Forall2 (number2 m) er ex ->
  In z1 zs -> In z2 zs -> z1 <> z2 -> ~ In (z1, z2) ex -> ~ In (z2, z1) ex -> (forall b, ~ picks m z1 b) ->
  fst (update_model m (history os c)) = Err IndexError.
Proof.
  intros Hn Hne Ho Hb Hw H1 H2 I1 I2 Hz X1 X2 Hs. destruct (self_history _ _ _ _ _ _ _ _ _ os Hn Hne Ho) as (s & exs & ps & k & E).
  apply (excl_numbered m) in H2; [|exact Hw].
  destruct (exclude_set_ok m er ex H2 []) as (exs' & E' & Hin').
  assert (B := self_bind m _ _ _ E). cbn [sc_excl_raw sc_bodies sc_n] in B. rewrite E' in B.
  assert (L : listed m bs = bs) by (destruct bs; [contradiction|reflexivity]). rewrite L in B.
  assert (Hex : ~ In (sorted_pair z1 z2) exs').
  { rewrite Hin'. intros [[]|H]. apply sorted_excl in H. tauto. }
  assert (R : Forall2 (fun x z => body2id m x = Ok z) bs zs).
  { eapply Forall2_impl; [|exact H1]. intros. now apply number_body2id. }
  assert (Get : forall z, In z zs -> exists x, In x bs /\ body2id m x = Ok z).
  { clear - R. induction R as [|x z bs zs H _ IH]; intros w []; [subst; exists x; cbn; tauto|]. destruct (IH w H0) as (y & ? & ?). exists y. cbn. tauto. }
  destruct (Get z1 I1) as (x1 & J1 & K1). destruct (Get z2 I2) as (x2 & J2 & K2).
  destruct Hb as (L1 & _).
  assert (W := np_idx_out m _ z1 L1 Hs).
  assert (F : forall acc, exists e, add_body_pair m exs' x1 x2 acc = Err e).
  { intros acc. unfold add_body_pair. rewrite K1, K2. cbn [bind]. apply Z.eqb_neq in Hz. rewrite Hz.
    destruct (zpair_mem _ _) eqn:Z; [apply zpair_mem_in in Z; contradiction|]. unfold validate_body_pair. rewrite W. cbn. eauto. }
  assert (F' : forall acc, exists e, add_body_pair m exs' x2 x1 acc = Err e).
  { intros acc. unfold add_body_pair. rewrite K1, K2. cbn [bind]. replace (z2 =? z1) with false by (symmetry; apply Z.eqb_neq; congruence).
    rewrite sorted_pair_comm. destruct (zpair_mem _ _) eqn:Z; [apply zpair_mem_in in Z; contradiction|]. unfold validate_body_pair. rewrite W.
    destruct (np_idx _ z2); cbn; eauto. }
  assert (G : exists e, generate_collision_pairs m bs exs' = Err e).
  { unfold generate_collision_pairs. destruct (two_positions x1 x2 bs J1 J2) as [P|P].
    - intros ->. congruence.
    - eapply all_fails; [exact F|exact P].
    - eapply all_fails; [exact F'|exact P]. }
  destruct G as [e G]. rewrite G in B. rewrite B. unfold generate_collision_pairs in G. apply all_err in G.
  destruct G as [->|(y & Hy & Ey)]; [reflexivity|]. exfalso. clear - R Hy Ey.
  induction R as [|x z bs zs H _ IH]; [destruct Hy|]. destruct Hy as [->|Hy]; [congruence|auto].
Qed.
Lemma not_a_reference_excluded name gain gf sdg dm bs er n c os m :
  new_self_collision name gain gf sdg dm bs er n = Ok c -> bs <> [] -> Forall api_op os ->
  (exists x, In (CBOther, x) er \/ In (x, CBOther) er) -> fst (update_model m (history os c)) = Err ValueError.
Proof.
  intros Hn Hne Ho Hx. destruct (self_history _ _ _ _ _ _ _ _ _ os Hn Hne Ho) as (s & exs & ps & k & E).
  assert (B := self_bind m _ _ _ E). cbn [sc_excl_raw sc_bodies sc_n] in B.
  assert (X : exclude_set m er [] = Err ValueError).
  { clear - Hx. generalize (@nil (Z * Z)). induction er as [|[x y] er IH]; intros acc; [destruct Hx as (x & [[]|[]])|].
    cbn [exclude_set]. destruct x; cbn [body2id bind]; try reflexivity; destruct y; cbn [body2id bind]; try reflexivity;
    (apply IH; destruct Hx as (w & [[H|H]|[H|H]]); try discriminate; eauto). }
  rewrite X in B. exact B.
Qed.
Lemma not_a_reference name gain gf sdg dm bs er n c os m :
  new_self_collision name gain gf sdg dm bs er n = Ok c -> (2 <= List.length bs)%nat -> Forall api_op os ->
  In CBOther bs -> exists e, fst (update_model m (history os c)) = Err e /\ (e = ValueError \/ e = IndexError).
Proof.
  intros Hn Hl Ho Hx. assert (Hne : bs <> []) by (intros ->; cbn in Hl; lia).
  destruct (self_history _ _ _ _ _ _ _ _ _ os Hn Hne Ho) as (s & exs & ps & k & E).
  assert (B := self_bind m _ _ _ E). cbn [sc_excl_raw sc_bodies sc_n] in B.
  destruct (exclude_set m er []) as [ex|e] eqn:X.
  - assert (L : listed m bs = bs) by (destruct bs; [contradiction|reflexivity]). rewrite L in B.
    assert (P : exists y, before CBOther y bs \/ before y CBOther bs).
    { apply in_split in Hx. destruct Hx as (l1 & l2 & ->). destruct l1 as [|w l1].
      - destruct l2 as [|w l2]; [cbn in Hl; lia|]. exists w. left. now exists [], [], l2.
      - exists w. right. now exists [], l1, l2. }
    assert (G : exists e, generate_collision_pairs m bs ex = Err e).
    { destruct P as (y & [P|P]); eapply all_fails; try exact P; intros acc; unfold add_body_pair; cbn [body2id bind]; eauto.
      destruct (body2id m y); cbn [bind]; eauto. }
    destruct G as [e G]. rewrite G in B. exists e. split; [exact B|]. unfold generate_collision_pairs in G. apply all_err in G.
    destruct G as [G|(y & _ & Ey)]; [now right|left]. destruct y; cbn in Ey; congruence.
  - exists e. split; [exact B|]. left. clear - X. revert X. generalize (@nil (Z * Z)).
    induction er as [|[x y] er IH]; intros acc; cbn [exclude_set]; [discriminate|].
    destruct x; cbn [body2id bind]; try congruence; destruct y; cbn [body2id bind]; try congruence; apply IH.
Qed.

(** ** Re-binding *)
Lemma first_state name gain gf sdg dm bs er n c os :
  new_self_collision name gain gf sdg dm bs er n = Ok c -> Forall no_bind os ->
  a_ext (c_at (history os c)) = XBarrier sdg (BSelf (mkSC dm bs er None None n)).
Proof.
  intros Hn Ho. assert (E0 := self_new _ _ _ _ _ _ _ _ _ Hn). revert E0. clear Hn. revert c. induction Ho as [|o os Ho1 _ IH]; intros c E0; [exact E0|].
  cbn. apply IH. assert (S : asteps (c_at c) (c_at (after o c))) by (apply api_steps; [destruct o; cbn in *; tauto|intros m' ->; exact Ho1]).
  revert E0. clear - S. induction S as [x y H|x|x y z _ IH1 _ IH2]; auto. intros E.
  destruct H; try (rewrite E in *; discriminate); cbn; auto. destruct (forced_other _ _ H) as (_ & _ & _ & _ & _ & ->). exact E.
Qed.
Lemma keep_state sdg s os : forall c, Forall no_bind os -> a_ext (c_at c) = XBarrier sdg (BSelf s) ->
  a_ext (c_at (history os c)) = XBarrier sdg (BSelf s).
Proof.
  intros c Ho. revert c. induction Ho as [|o os Ho1 _ IH]; intros c E0; [exact E0|].
  cbn. apply IH. assert (S : asteps (c_at c) (c_at (after o c))) by (apply api_steps; [destruct o; cbn in *; tauto|intros m' ->; exact Ho1]).
  revert E0. clear - S. induction S as [x y H|x|x y z _ IH1 _ IH2]; auto. intros E.
  destruct H; try (rewrite E in *; discriminate); cbn; auto. destruct (forced_other _ _ H) as (_ & _ & _ & _ & _ & ->). exact E.
Qed.
Lemma all_refer m m2 : (m_nbody m <= m_nbody m2)%nat -> Forall2 (refers m2) (map CBInt (zrange 0 (Z.of_nat (m_nbody m)))) (all_bodies m).
Proof.
  intros Hle. rewrite zrange_seq. unfold all_bodies. rewrite map_map.
  assert (H : forall l, (forall i, In i l -> (i < m_nbody m2)%nat) -> Forall2 (refers m2) (map (fun x => CBInt (Z.of_nat x)) l) (map Z.of_nat l)).
  { induction l as [|i l IH]; intros H; cbn; constructor; [constructor; unfold is_body; specialize (H i (or_introl eq_refl)); lia|].
    apply IH. intros j Hj. apply H. now right. }
  apply H. intros i Hi. apply in_seq in Hi. lia.
Qed.
Lemma default_rebound name gain gf sdg dm er n c os os' m1 m2 ex1 ex2 :
  new_self_collision name gain gf sdg dm [] er n = Ok c -> Forall no_bind os -> Forall no_bind os' ->
  wf_bodies m1 -> wf_names m1 -> wf_bodies m2 -> wf_names m2 -> (0 < m_nbody m1 <= m_nbody m2)%nat ->
  Forall2 (refers2 m1) er ex1 -> Forall2 (refers2 m2) er ex2 ->
  let first := snd (update_model m1 (history os c)) in
  let again := snd (update_model m2 (history os' first)) in
  fst (update_model m2 (history os' first)) = Ok tt /\
  exists ps1 ps2, checks first ps1 /\ checks_exactly m1 (all_bodies m1) ex1 ps1 /\
    checks again ps2 /\ checks_exactly m2 (all_bodies m1) ex2 ps2 /\
    a_dim (c_at again) = if (n =? -1) then Z.of_nat (List.length ps1) else n.
Proof.
  intros Hn Ho Ho' Hb1 Hw1 Hb2 Hw2 Hle H1 H2 first again.
  assert (E := first_state _ _ _ _ _ _ _ _ _ os Hn Ho).
  destruct (generated m1 _ _ _ _ Hb1 Hw1 (refers_all m1) H1) as (exs1 & ps1 & A1 & A2 & C1).
  assert (B := self_bind m1 _ _ _ E). cbn [sc_excl_raw sc_bodies sc_n sc_dmin] in B. rewrite A1 in B. unfold listed in B. rewrite A2 in B. cbn zeta in B.
  set (k1 := if n =? -1 then Z.of_nat (List.length ps1) else n) in *.
  assert (E1 : a_ext (c_at first) = XBarrier sdg (BSelf (mkSC dm (map CBInt (zrange 0 (Z.of_nat (m_nbody m1)))) er (Some exs1) (Some ps1) k1))).
  { unfold first. rewrite B. reflexivity. }
  assert (E2 := keep_state _ _ os' _ Ho' E1).
  destruct (bind_checks m2 _ _ _ (all_bodies m1) ex2 E2 Hb2 Hw2) as (ps2 & U1 & U2 & U3 & U4).
  { cbn [sc_bodies]. assert (L : listed m2 (map CBInt (zrange 0 (Z.of_nat (m_nbody m1)))) = map CBInt (zrange 0 (Z.of_nat (m_nbody m1)))).
    { rewrite zrange_seq. destruct (m_nbody m1); [lia|reflexivity]. }
    rewrite L. apply all_refer. lia. }
  { exact H2. }
  split; [exact U1|]. exists ps1, ps2. split; [do 2 eexists; split; [exact E1|reflexivity]|]. split; [exact C1|].
  split; [exact U2|]. split; [exact U3|]. unfold again. rewrite U4. cbn [sc_n]. fold k1.
  assert (N : k1 =? -1 = false). { apply Z.eqb_neq. unfold k1. destruct (n =? -1) eqn:N; [lia|]. now apply Z.eqb_neq in N. }
  now rewrite N.
Qed.
#[local] Arguments generate_collision_pairs : simpl never.
#[local] Arguments exclude_set : simpl never.
#[local] Arguments zrange : simpl never.
Lemma listed_rebound name gain gf sdg dm bs er n c os m :
  new_self_collision name gain gf sdg dm bs er n = Ok c -> bs <> [] -> n <> -1 -> Forall api_op os ->
  forall ids ex, wf_bodies m -> wf_names m -> Forall2 (refers m) bs ids -> Forall2 (refers2 m) er ex ->
  exists ps, fst (update_model m (history os c)) = Ok tt /\ checks (snd (update_model m (history os c))) ps /\
    checks_exactly m ids ex ps /\ a_dim (c_at (snd (update_model m (history os c)))) = n.
Proof.
  intros Hn Hne Hk Ho ids ex Hb Hw H1 H2.
  assert (I : exists s ex0 ps0, a_ext (c_at (history os c)) = XBarrier s (BSelf (mkSC dm bs er ex0 ps0 n))).
  { pose (P := fun a => exists s ex0 ps0, a_ext a = XBarrier s (BSelf (mkSC dm bs er ex0 ps0 n))).
    change (P (c_at (history os c))). apply api_history; auto.
    - red. rewrite (self_new _ _ _ _ _ _ _ _ _ Hn). eauto.
    - intros a a' (s & e0 & p0 & He) Hs. unfold P. destruct Hs; try (rewrite He in *; discriminate); cbn; eauto 6.
      destruct (forced_other _ _ H) as (_ & _ & _ & _ & _ & ->). eauto 6.
    - intros c0 m0 (s & e0 & p0 & He).
      assert (HU : update_model m0 c0 = update_model_self m0 c0) by (unfold update_model, mbind, read; now rewrite He).
      rewrite HU. unfold update_model_self, mseq, mbind, seta, read, lift, ret, self_of, upd_self. cbn. rewrite He. cbn.
      destruct bs as [|b bs]; [contradiction|]. cbn.
      destruct (exclude_set m0 er []) as [ex'|e]; cbn; [|unfold P; cbn; rewrite He; eauto 6]. rewrite ?He. cbn.
      destruct (generate_collision_pairs m0 (b :: bs) ex') as [ps'|e]; cbn; [|unfold P; cbn; eauto 6].
      apply Z.eqb_neq in Hk. rewrite Hk. cbn; unfold P; cbn; eauto 6. }
  destruct I as (s & e0 & p0 & E).
  destruct (bind_checks m _ _ _ ids ex E Hb Hw) as (ps' & A & B & C & D).
  - cbn. destruct bs; [contradiction|exact H1].
  - exact H2.
  - exists ps'. split; [exact A|]. split; [exact B|]. split; [exact C|]. rewrite D. cbn. apply Z.eqb_neq in Hk. now rewrite Hk.
Qed.
