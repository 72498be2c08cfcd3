(** Collision pair generation: soundness and completeness. *)
From Verif Require Import Base Lin Mjx Typing Component SpecComponent BindFacts2 SpecCollision.
Open Scope Z_scope.

Lemma np_idx_in (l : list Z) i : 0 <= i < Z.of_nat (List.length l) -> np_idx l i = Ok (ent l i).
Proof.
  intros H. unfold np_idx, ent. replace (i <? 0) with false by (symmetry; apply Z.ltb_ge; lia).
  replace ((i <? 0) || (Z.of_nat (List.length l) <=? i))%bool with false.
  2: { symmetry. apply orb_false_intro; [apply Z.ltb_ge|apply Z.leb_gt]; lia. }
  destruct (nth_error l (Z.to_nat i)) as [x|] eqn:E.
  - now rewrite (nth_error_nth _ _ 0 E).
  - apply nth_error_None in E. lia.
Qed.

Lemma zpair_eqb_eq p q : zpair_eqb p q = true <-> p = q.
Proof.
  destruct p as [a b], q as [c d]. unfold zpair_eqb. cbn. rewrite andb_true_iff, !Z.eqb_eq. split.
  - intros [-> ->]. reflexivity.
  - intros H. injection H as -> ->. now split.
Qed.
Lemma zpair_mem_in p l : zpair_mem p l = true <-> In p l.
Proof.
  unfold zpair_mem. rewrite existsb_exists. split.
  - intros (q & H & E). apply zpair_eqb_eq in E. now subst.
  - intros H. exists p. split; [exact H|]. now apply zpair_eqb_eq.
Qed.
Lemma set_add_in p l q : In q (set_add p l) <-> q = p \/ In q l.
Proof.
  unfold set_add. destruct (zpair_mem p l) eqn:E.
  - apply zpair_mem_in in E. split; [now right|]. intros [->|H]; assumption.
  - rewrite in_app_iff. cbn. split; [intros [H|[H|[]]]; auto|intros [H|H]; auto].
Qed.
Lemma set_add_nodup p l : NoDup l -> NoDup (set_add p l).
Proof.
  intros H. unfold set_add. destruct (zpair_mem p l) eqn:E; [exact H|].
  assert (~ In p l) by (intros H'; apply zpair_mem_in in H'; congruence).
  apply Permutation_NoDup with (p :: l); [|now constructor].
  change (p :: l) with ([p] ++ l). apply Permutation_app_comm.
Qed.

Section WithModel.
Variable m : mjmodel.
Hypothesis Hwf : wf_bodies m.

Lemma body_valid b1 b2 : is_body m b1 -> is_body m b2 ->
  exists v, validate_body_pair m b1 b2 = Ok v /\ (v = true <-> may_collide m b1 b2).
Proof.
  intros H1 H2. destruct Hwf as (L1 & L2 & _ & _ & _ & _ & Hr & _). unfold is_body in *.
  unfold validate_body_pair.
  rewrite (np_idx_in (m_body_weldid m) b1), (np_idx_in (m_body_weldid m) b2) by lia. cbn [bind].
  pose proof (proj1 (Hr _ H1)) as W1. pose proof (proj1 (Hr _ H2)) as W2.
  rewrite (np_idx_in (m_body_parentid m) (ent (m_body_weldid m) b1)), (np_idx_in (m_body_parentid m) (ent (m_body_weldid m) b2)) by lia. cbn [bind].
  pose proof (proj2 (Hr _ W1)) as P1. pose proof (proj2 (Hr _ W2)) as P2.
  rewrite (np_idx_in (m_body_weldid m) _) by lia. cbn [bind].
  rewrite (np_idx_in (m_body_weldid m) _) by lia. cbn [bind].
  eexists. split; [reflexivity|]. unfold may_collide, weld, parent.
  rewrite negb_true_iff, !orb_false_iff, !Z.eqb_neq. tauto.
Qed.

Lemma geom_valid g1 g2 : is_geom m g1 -> is_geom m g2 ->
  exists v, validate_geom_pair m g1 g2 = Ok v /\ (v = true <-> compatible m g1 g2).
Proof.
  intros H1 H2. destruct Hwf as (_ & _ & _ & _ & L5 & L6 & _). unfold is_geom in *.
  unfold validate_geom_pair, compatible.
  rewrite (np_idx_in (m_geom_contype m) g1), (np_idx_in (m_geom_conaffinity m) g2) by lia. cbn [bind].
  destruct (Z.land _ _ =? 0) eqn:E; cbn [negb].
  - rewrite (np_idx_in (m_geom_contype m) g2), (np_idx_in (m_geom_conaffinity m) g1) by lia. cbn [bind].
    eexists. split; [reflexivity|]. rewrite negb_true_iff, Z.eqb_neq. apply Z.eqb_eq in E. tauto.
  - apply Z.eqb_neq in E. exists true. split; [reflexivity|]. tauto.
Qed.

Lemma body_geoms_ok b : is_body m b ->
  exists gs, body_geoms m b = Ok gs /\ forall g, In g gs <-> is_geom m g /\ ent (m_geom_bodyid m) g = b.
Proof.
  intros H. pose proof Hwf as (_ & _ & L3 & L4 & _ & _ & _ & Hg). unfold is_body in H. unfold body_geoms.
  rewrite (np_idx_in (m_body_geomadr m) b), (np_idx_in (m_body_geomnum m) b) by lia. cbn [bind].
  eexists. split; [reflexivity|]. intros g. rewrite <- (Hg b g H). unfold zrange. rewrite in_map_iff. split.
  - intros (k & <- & Hk). apply in_seq in Hk. lia.
  - intros Hk. exists (Z.to_nat (g - ent (m_body_geomadr m) b)). split; [lia|]. apply in_seq. lia.
Qed.

Definition geom_pair_ok (g1 g2 : Z) (p : Z * Z) : Prop := compatible m g1 g2 /\ p = sorted_pair g1 g2.

Lemma add_geoms2_ok g1 gs2 : is_geom m g1 -> Forall (is_geom m) gs2 -> forall acc, NoDup acc ->
  exists acc', add_geoms2 m g1 gs2 acc = Ok acc' /\ NoDup acc' /\
    forall p, In p acc' <-> In p acc \/ exists g2, In g2 gs2 /\ geom_pair_ok g1 g2 p.
Proof.
  intros H1 H2. induction H2 as [|g2 gs2 Hg _ IH]; intros acc Hn; cbn [add_geoms2].
  - exists acc. split; [reflexivity|]. split; [exact Hn|]. intros p. split; [auto|]. intros [H|(g & [] & _)]. exact H.
  - destruct (geom_valid g1 g2 H1 Hg) as (v & Hv & Hc). rewrite Hv. cbn [bind].
    destruct (IH (if v then set_add (sorted_pair g1 g2) acc else acc)) as (acc' & E & Hn' & Hin).
    { destruct v; [now apply set_add_nodup|exact Hn]. }
    exists acc'. split; [exact E|]. split; [exact Hn'|]. intros p. rewrite Hin. unfold geom_pair_ok. destruct v.
    + rewrite set_add_in. split.
      * intros [[->|H]|(g & Hg' & Hp)]; [right; exists g2; cbn; tauto|now left|right; exists g; cbn; tauto].
      * intros [H|(g & [<-|Hg'] & [Hc' ->])]; [tauto|tauto|]. right. exists g. tauto.
    + split.
      * intros [H|(g & Hg' & Hp)]; [now left|right; exists g; cbn; tauto].
      * intros [H|(g & [<-|Hg'] & [Hc' Hp])]; [now left| |right; exists g; tauto].
        exfalso. apply Hc in Hc'. discriminate.
Qed.
Lemma add_geoms1_ok gs1 gs2 : Forall (is_geom m) gs1 -> Forall (is_geom m) gs2 -> forall acc, NoDup acc ->
  exists acc', add_geoms1 m gs1 gs2 acc = Ok acc' /\ NoDup acc' /\
    forall p, In p acc' <-> In p acc \/ exists g1 g2, In g1 gs1 /\ In g2 gs2 /\ geom_pair_ok g1 g2 p.
Proof.
  intros H1 H2. induction H1 as [|g1 gs1 Hg _ IH]; intros acc Hn; cbn [add_geoms1].
  - exists acc. split; [reflexivity|]. split; [exact Hn|]. intros p. split; [auto|]. intros [H|(g & g' & [] & _)]. exact H.
  - destruct (add_geoms2_ok g1 gs2 Hg H2 acc Hn) as (acc1 & E1 & Hn1 & Hin1). rewrite E1. cbn [bind].
    destruct (IH acc1 Hn1) as (acc' & E & Hn' & Hin). exists acc'. split; [exact E|]. split; [exact Hn'|].
    intros p. rewrite Hin, Hin1. split.
    + intros [[H|(g2 & Ha & Hb)]|(g & g2 & Ha & Hb & Hc)]; [now left|right; exists g1, g2; cbn; tauto|].
      right. exists g, g2. cbn. tauto.
    + intros [H|(g & g2 & [<-|Ha] & Hb & Hc)]; [tauto|left; right; eauto|right; eauto 6].
Qed.

(** Pairs contributed by two resolved bodies. *)
Definition body_pair_ok (excl : list (Z * Z)) (b1 b2 : Z) (p : Z * Z) : Prop :=
  b1 <> b2 /\ ~ In (sorted_pair b1 b2) excl /\ may_collide m b1 b2 /\
  exists g1 g2, (is_geom m g1 /\ ent (m_geom_bodyid m) g1 = b1) /\ (is_geom m g2 /\ ent (m_geom_bodyid m) g2 = b2) /\
    geom_pair_ok g1 g2 p.

Lemma add_body_pair_ok excl x y b1 b2 : body2id m x = Ok b1 -> body2id m y = Ok b2 -> is_body m b1 -> is_body m b2 ->
  forall acc, NoDup acc ->
  exists acc', add_body_pair m excl x y acc = Ok acc' /\ NoDup acc' /\
    forall p, In p acc' <-> In p acc \/ body_pair_ok excl b1 b2 p.
Proof.
  intros Hx Hy H1 H2 acc Hn. unfold add_body_pair. rewrite Hx, Hy. cbn [bind]. unfold body_pair_ok.
  destruct (b1 =? b2) eqn:Eb.
  { apply Z.eqb_eq in Eb. exists acc. split; [reflexivity|]. split; [exact Hn|]. intros p. tauto. }
  apply Z.eqb_neq in Eb. destruct (zpair_mem (sorted_pair b1 b2) excl) eqn:Ee.
  { apply zpair_mem_in in Ee. exists acc. split; [reflexivity|]. split; [exact Hn|]. intros p. tauto. }
  assert (Ne : ~ In (sorted_pair b1 b2) excl) by (intros H; apply zpair_mem_in in H; congruence).
  destruct (body_valid b1 b2 H1 H2) as (v & Hv & Hc). rewrite Hv. cbn [bind]. destruct v; cbn [negb].
  - destruct (body_geoms_ok b1 H1) as (gs1 & E1 & G1). destruct (body_geoms_ok b2 H2) as (gs2 & E2 & G2).
    rewrite E1, E2. cbn [bind].
    destruct (add_geoms1_ok gs1 gs2) with (acc := acc) as (acc' & E & Hn' & Hin); auto.
    { apply Forall_forall. intros g Hg. now apply G1 in Hg. }
    { apply Forall_forall. intros g Hg. now apply G2 in Hg. }
    exists acc'. split; [exact E|]. split; [exact Hn'|]. intros p. rewrite Hin. split.
    + intros [H|(g1 & g2 & Ha & Hb & Hp)]; [now left|right]. apply G1 in Ha. apply G2 in Hb.
      split; [exact Eb|]. split; [exact Ne|]. split; [now apply Hc|]. exists g1, g2. tauto.
    + intros [H|(_ & _ & _ & g1 & g2 & Ha & Hb & Hp)]; [now left|right]. exists g1, g2. rewrite G1, G2. tauto.
  - exists acc. split; [reflexivity|]. split; [exact Hn|]. intros p. split; [tauto|].
    intros [H|(_ & _ & Hmc & _)]; [exact H|]. apply Hc in Hmc. discriminate.
Qed.

(** All bodies resolved to ids. *)
Definition resolved (bs : list cbody) (ids : list Z) : Prop :=
  Forall2 (fun x b => body2id m x = Ok b /\ is_body m b) bs ids.

Lemma add_body_with_ok excl x b1 : body2id m x = Ok b1 -> is_body m b1 -> forall ys ids, resolved ys ids ->
  forall acc, NoDup acc ->
  exists acc', add_body_with m excl x ys acc = Ok acc' /\ NoDup acc' /\
    forall p, In p acc' <-> In p acc \/ exists b2, In b2 ids /\ body_pair_ok excl b1 b2 p.
Proof.
  intros Hx H1 ys ids Hr. induction Hr as [|y b2 ys ids [Hy H2] _ IH]; intros acc Hn; cbn [add_body_with].
  - exists acc. split; [reflexivity|]. split; [exact Hn|]. intros p. split; [auto|]. intros [H|(b & [] & _)]. exact H.
  - destruct (add_body_pair_ok excl x y b1 b2 Hx Hy H1 H2 acc Hn) as (acc1 & E1 & Hn1 & Hin1). rewrite E1. cbn [bind].
    destruct (IH acc1 Hn1) as (acc' & E & Hn' & Hin). exists acc'. split; [exact E|]. split; [exact Hn'|].
    intros p. rewrite Hin, Hin1. split.
    + intros [[H|H]|(b & Ha & Hb)]; [now left|right; exists b2; cbn; tauto|right; exists b; cbn; tauto].
    + intros [H|(b & [<-|Ha] & Hb)]; [tauto|tauto|right; eauto].
Qed.

(** Ordered pairs of list positions. *)
Fixpoint later_pair (ids : list Z) (b1 b2 : Z) : Prop :=
  match ids with [] => False | b :: r => (b1 = b /\ In b2 r) \/ later_pair r b1 b2 end.

Lemma add_all_ok excl bs ids : resolved bs ids -> forall acc, NoDup acc ->
  exists acc', add_all_bodies m excl bs acc = Ok acc' /\ NoDup acc' /\
    forall p, In p acc' <-> In p acc \/ exists b1 b2, later_pair ids b1 b2 /\ body_pair_ok excl b1 b2 p.
Proof.
  intros Hr. induction Hr as [|x b bs ids [Hx Hb] Hr IH]; intros acc Hn; cbn [add_all_bodies].
  - exists acc. split; [reflexivity|]. split; [exact Hn|]. intros p. split; [auto|]. intros [H|(b1 & b2 & [] & _)]. exact H.
  - destruct (add_body_with_ok excl x b Hx Hb bs ids Hr acc Hn) as (acc1 & E1 & Hn1 & Hin1). rewrite E1. cbn [bind].
    destruct (IH acc1 Hn1) as (acc' & E & Hn' & Hin). exists acc'. split; [exact E|]. split; [exact Hn'|].
    intros p. rewrite Hin, Hin1. cbn [later_pair]. split.
    + intros [[H|(b2 & H1 & H2)]|(b1 & b2 & H1 & H2)]; [now left|right; exists b, b2; tauto|right; exists b1, b2; tauto].
    + intros [H|(b1 & b2 & [[-> H1]|H1] & H2)]; [tauto|left; right; eauto|right; eauto].
Qed.

Lemma later_pair_in ids b1 b2 : later_pair ids b1 b2 -> In b1 ids /\ In b2 ids.
Proof. induction ids as [|b ids IH]; cbn; [tauto|]. intros [[-> H]|H]; [tauto|]. apply IH in H. tauto. Qed.
Lemma in_later_pair ids b1 b2 : In b1 ids -> In b2 ids -> b1 <> b2 -> later_pair ids b1 b2 \/ later_pair ids b2 b1.
Proof.
  induction ids as [|b ids IH]; cbn; [tauto|]. intros [H1|H1] [H2|H2] Hn.
  - congruence.
  - left. left. now split.
  - right. left. now split.
  - destruct (IH H1 H2 Hn); tauto.
Qed.

Lemma sorted_pair_comm a b : sorted_pair a b = sorted_pair b a.
Proof. unfold sorted_pair. f_equal; lia. Qed.
Lemma compatible_comm g1 g2 : compatible m g1 g2 -> compatible m g2 g1.
Proof. unfold compatible. tauto. Qed.
Lemma may_collide_comm b1 b2 : may_collide m b1 b2 -> may_collide m b2 b1.
Proof. unfold may_collide. intuition congruence. Qed.
Lemma body_pair_ok_comm excl b1 b2 p : body_pair_ok excl b1 b2 p -> body_pair_ok excl b2 b1 p.
Proof.
  intros (H1 & H2 & H3 & g1 & g2 & Ha & Hb & Hc & Hp). split; [congruence|]. split; [now rewrite sorted_pair_comm|].
  split; [now apply may_collide_comm|]. exists g2, g1. split; [exact Hb|]. split; [exact Ha|].
  split; [now apply compatible_comm|]. now rewrite sorted_pair_comm.
Qed.

(** Exclusions: resolved in any order. *)
Definition excl_resolved (raw : list (cbody * cbody)) (ex : list (Z * Z)) : Prop :=
  Forall2 (fun xy ab => body2id m (fst xy) = Ok (fst ab) /\ body2id m (snd xy) = Ok (snd ab)) raw ex.
Lemma exclude_set_ok raw ex : excl_resolved raw ex -> forall acc,
  exists acc', exclude_set m raw acc = Ok acc' /\
    forall p, In p acc' <-> In p acc \/ exists a b, In (a, b) ex /\ p = sorted_pair a b.
Proof.
  intros H. induction H as [|[x y] [a b] raw ex [Hx Hy] _ IH]; intros acc; cbn [exclude_set].
  - exists acc. split; [reflexivity|]. intros p. split; [auto|]. intros [H|(a & b & [] & _)]. exact H.
  - cbn in Hx, Hy. rewrite Hx, Hy. cbn [bind]. destruct (IH (set_add (sorted_pair a b) acc)) as (acc' & E & Hin).
    exists acc'. split; [exact E|]. intros p. rewrite Hin, set_add_in. split.
    + intros [[->|H]|(c & d & H & ->)]; [right; exists a, b; cbn; tauto|now left|right; exists c, d; cbn; tauto].
    + intros [H|(c & d & [H|H] & ->)]; [tauto|injection H as -> ->; tauto|right; eauto].
Qed.

Lemma sorted_excl ex b1 b2 : (exists a b, In (a, b) ex /\ sorted_pair b1 b2 = sorted_pair a b) <-> In (b1, b2) ex \/ In (b2, b1) ex.
Proof.
  split.
  - intros (a & b & H & E). unfold sorted_pair in E. injection E as E1 E2.
    assert ((a = b1 /\ b = b2) \/ (a = b2 /\ b = b1)) as [[-> ->]|[-> ->]] by lia; tauto.
  - intros [H|H]; [exists b1, b2; tauto|exists b2, b1; split; [exact H|apply sorted_pair_comm]].
Qed.

Lemma pairs_generated bs ids raw ex exs : resolved bs ids -> excl_resolved raw ex ->
  exclude_set m raw [] = Ok exs ->
  exists ps, generate_collision_pairs m bs exs = Ok ps /\ NoDup ps /\
    forall p, In p ps <-> exists g1 g2, to_check m ids ex g1 g2 /\ p = (Z.min g1 g2, Z.max g1 g2).
Proof.
  intros Hr Hx He. destruct (exclude_set_ok raw ex Hx []) as (exs' & E' & Hin'). rewrite He in E'. injection E' as <-.
  destruct (add_all_ok exs bs ids Hr [] (NoDup_nil _)) as (ps & E & Hn & Hin). exists ps. split; [exact E|].
  split; [exact Hn|]. intros p. rewrite Hin.
  assert (Hex : forall b1 b2, In (sorted_pair b1 b2) exs <-> In (b1, b2) ex \/ In (b2, b1) ex).
  { intros b1 b2. rewrite Hin'. rewrite <- sorted_excl. cbn. split; [intros [[]|H]; exact H|auto]. }
  split.
  - intros [[]|(b1 & b2 & Hl & Hne & Hnx & Hmc & g1 & g2 & (G1 & G1') & (G2 & G2') & Hc & ->)].
    apply later_pair_in in Hl. rewrite Hex in Hnx. exists g1, g2. split; [|reflexivity].
    exists b1, b2. repeat split; try tauto; try apply Hmc; try apply G1; try apply G2.
  - intros (g1 & g2 & (b1 & b2 & I1 & I2 & Hne & X1 & X2 & Hmc & G1 & G1' & G2 & G2' & Hc) & ->). right.
    assert (B : body_pair_ok exs b1 b2 (Z.min g1 g2, Z.max g1 g2)).
    { split; [exact Hne|]. split; [rewrite Hex; tauto|]. split; [exact Hmc|]. exists g1, g2. unfold geom_pair_ok, sorted_pair. tauto. }
    destruct (in_later_pair ids b1 b2 I1 I2 Hne) as [H|H]; [exists b1, b2; tauto|].
    exists b2, b1. split; [exact H|]. now apply body_pair_ok_comm.
Qed.

Lemma to_check_comm ids ex g1 g2 : to_check m ids ex g1 g2 -> to_check m ids ex g2 g1.
Proof.
  intros (b1 & b2 & H). exists b2, b1. pose proof (may_collide_comm b1 b2). pose proof (compatible_comm g1 g2). intuition.
Qed.
End WithModel.

Lemma refers_body2id m x b : wf_names m -> refers m x b -> body2id m x = Ok b /\ is_body m b.
Proof.
  intros Hw H. destruct H as [i H|s i H H']; cbn; [tauto|]. split; [|exact H'].
  f_equal. now apply (name2id_spec m OBody s i Hw).
Qed.
