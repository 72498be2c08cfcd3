(** C38, C40: exactly when a re-bound self-collision barrier adapts to its new model. *)
From Verif Require Import Base Lin Mjx Typing Component SpecComponent SpecHistory SpecTyping SpecJoint ComponentFacts ComponentFacts2 BindFacts2 BindFacts3 BindThms2 SpecCollision CollisionPairs SpecWrap WrapFacts ApiSteps ApiSteps.
Open Scope Z_scope.

(** The pairs to check among the bodies [ids] are those among all bodies exactly if the rest takes part in none. *)
Lemma same_pairs m ids ids' ex ps : (forall b, In b ids -> In b ids') -> checks_exactly m ids ex ps ->
  (checks_exactly m ids' ex ps <-> forall g1 g2, to_check m ids' ex g1 g2 -> to_check m ids ex g1 g2).
Proof.
  intros Hs [Nd H]. assert (Mono : forall g1 g2, to_check m ids ex g1 g2 -> to_check m ids' ex g1 g2) by (intros g1 g2 (b1 & b2 & A & B & R); exists b1, b2; auto).
  split.
  - intros [_ H'] g1 g2 T. destruct (Z.lt_trichotomy g1 g2) as [L|[->|L]].
    + now apply (H g1 g2), (H' g1 g2).
    + destruct T as (b1 & b2 & _ & _ & N & _ & _ & _ & _ & E1 & _ & E2 & _). congruence.
    + apply to_check_comm. apply (H g2 g1), (H' g2 g1). split; [exact L|now apply to_check_comm].
  - intros K. split; [exact Nd|]. intros g1 g2. rewrite H. split; intros [A B]; auto.
Qed.
Lemma checked_among m n ex g1 g2 : (n <= m_nbody m)%nat -> to_check m (all_bodies m) ex g1 g2 ->
  (to_check m (map Z.of_nat (seq 0 n)) ex g1 g2 <-> ent (m_geom_bodyid m) g1 < Z.of_nat n /\ ent (m_geom_bodyid m) g2 < Z.of_nat n).
Proof.
  intros Hn (b1 & b2 & I1 & I2 & R). destruct R as (Ne & X1 & X2 & Mc & G1 & E1 & G2 & E2 & Co).
  assert (B : forall b, In b (all_bodies m) -> (In b (map Z.of_nat (seq 0 n)) <-> b < Z.of_nat n)).
  { intros b Hb. unfold all_bodies in Hb. apply in_map_iff in Hb as (k & <- & Hk). apply in_seq in Hk. rewrite in_map_iff. split; [intros (k' & E & Hk'); apply in_seq in Hk'; lia|].
    intros L. exists k. split; [reflexivity|apply in_seq; lia]. }
  split.
  - intros (c1 & c2 & J1 & J2 & _ & _ & _ & _ & _ & F1 & _ & F2 & _). rewrite F1, F2. apply in_map_iff in J1 as (k1 & <- & K1), J2 as (k2 & <- & K2). apply in_seq in K1, K2. lia.
  - rewrite E1, E2. intros [L1 L2]. exists b1, b2. rewrite (B b1 I1), (B b2 I2). repeat (split; [assumption|]). assumption.
Qed.

Lemma in_right {A B} (R : A -> B -> Prop) l l' y : Forall2 R l l' -> In y l' -> exists x, In x l /\ R x y.
Proof. induction 1 as [|a b l l' H _ IH]; intros Hy; [destruct Hy|]. destruct Hy as [->|Hy]; [exists a; split; [now left|exact H]|]. destruct (IH Hy) as (x & I & Hx). exists x. split; [now right|exact Hx]. Qed.

(** A body number outside the model. *)
Lemma np_out (l : list Z) i : Z.of_nat (List.length l) <= i -> np_idx l i = Err IndexError.
Proof. intros H. unfold np_idx. replace (i <? 0) with false by (symmetry; apply Z.ltb_ge; lia). replace ((i <? 0) || (Z.of_nat (List.length l) <=? i))%bool with true; [reflexivity|]. symmetry. apply orb_true_iff. right. now apply Z.leb_le. Qed.
Lemma outside_raises m exs k : forall a acc, wf_bodies m -> (0 < m_nbody m)%nat -> NoDup acc -> (1 <= a <= m_nbody m)%nat -> (m_nbody m < a + k)%nat -> (forall p, In p exs -> snd p < Z.of_nat (m_nbody m)) ->
  add_body_with m exs (CBInt 0) (map CBInt (map Z.of_nat (seq a k))) acc = Err IndexError.
Proof.
  induction k as [|k IH]; intros a acc Hb H0 Nd Ha Hk Hx; [lia|]. cbn [seq map add_body_with].
  destruct (Nat.eq_dec a (m_nbody m)) as [->|Ne].
  - unfold add_body_pair. cbn [body2id bind]. replace (0 =? Z.of_nat (m_nbody m)) with false by (symmetry; apply Z.eqb_neq; lia).
    destruct (zpair_mem _ exs) eqn:E; [apply zpair_mem_in in E; apply Hx in E; unfold sorted_pair in E; cbn in E; lia|].
    unfold validate_body_pair. destruct Hb as (L1 & _). rewrite (np_idx_in (m_body_weldid m) 0) by lia. cbn [bind]. rewrite np_out by lia. reflexivity.
  - destruct (add_body_pair_ok m Hb exs (CBInt 0) (CBInt (Z.of_nat a)) 0 (Z.of_nat a) eq_refl eq_refl) with (acc := acc) as (acc' & E & Nd' & _); [unfold is_body; lia|unfold is_body; lia|exact Nd|].
    rewrite E. cbn [bind]. apply IH; auto; lia.
Qed.
Lemma smaller_raises name gain gf sdg dm er n c os os' m1 m2 ex1 ex2 :
  new_self_collision name gain gf sdg dm [] er n = Ok c -> Forall no_bind os -> Forall no_bind os' ->
  wf_bodies m1 -> wf_names m1 -> wf_bodies m2 -> wf_names m2 -> (0 < m_nbody m2 < m_nbody m1)%nat ->
  Forall2 (refers2 m1) er ex1 -> Forall2 (refers2 m2) er ex2 ->
  fst (update_model m2 (history os' (snd (update_model m1 (history os c))))) = Err IndexError.
Proof.
  intros Hn Ho Ho' Hb1 Hw1 Hb2 Hw2 Hle H1 H2. set (first := snd (update_model m1 (history os c))).
  assert (E := first_state _ _ _ _ _ _ _ _ _ os Hn Ho).
  destruct (generated m1 _ _ _ _ Hb1 Hw1 (refers_all m1) H1) as (exs1 & ps1 & A1 & A2 & C1).
  assert (B := self_bind m1 _ _ _ E). cbn [sc_excl_raw sc_bodies sc_n sc_dmin] in B. rewrite A1 in B. unfold listed in B. rewrite A2 in B. cbn zeta in B.
  set (k1 := if n =? -1 then Z.of_nat (List.length ps1) else n) in *.
  assert (E1 : a_ext (c_at first) = XBarrier sdg (BSelf (mkSC dm (map CBInt (zrange 0 (Z.of_nat (m_nbody m1)))) er (Some exs1) (Some ps1) k1))) by (unfold first; rewrite B; reflexivity).
  assert (E2 := keep_state _ _ os' _ Ho' E1). assert (S := self_bind m2 _ _ _ E2). cbn [sc_excl_raw sc_bodies sc_n sc_dmin] in S.
  destruct (exclude_set_ok m2 er ex2 (excl_refers m2 er ex2 Hw2 H2) []) as (exs & Ex & Ix). rewrite Ex in S.
  assert (L : listed m2 (map CBInt (zrange 0 (Z.of_nat (m_nbody m1)))) = map CBInt (zrange 0 (Z.of_nat (m_nbody m1)))) by (rewrite zrange_seq; destruct (m_nbody m1); [lia|reflexivity]).
  rewrite L, zrange_seq in S. unfold generate_collision_pairs in S. destruct (m_nbody m1) as [|n1] eqn:En; [lia|]. cbn [seq map add_all_bodies] in S.
  change (Z.of_nat 0) with 0 in S. rewrite (outside_raises m2 exs n1 1 []) in S; auto; try lia; try constructor.
  intros p Hp. apply Ix in Hp as [[]|(a & b & Hab & ->)]. destruct (in_right _ _ _ _ H2 Hab) as (x & _ & R1 & R2).
  destruct (refers_body2id _ _ _ Hw2 R1) as [_ V1], (refers_body2id _ _ _ Hw2 R2) as [_ V2]. unfold is_body, sorted_pair in *. cbn in *. lia.
Qed.

Lemma adapts_iff name gain gf sdg dm er n c os os' m1 m2 ex1 ex2 :
  new_self_collision name gain gf sdg dm [] er n = Ok c -> Forall no_bind os -> Forall no_bind os' ->
  wf_bodies m1 -> wf_names m1 -> wf_bodies m2 -> wf_names m2 -> (0 < m_nbody m1 <= m_nbody m2)%nat ->
  Forall2 (refers2 m1) er ex1 -> Forall2 (refers2 m2) er ex2 ->
  let again := snd (update_model m2 (history os' (snd (update_model m1 (history os c))))) in
  fst (update_model m2 (history os' (snd (update_model m1 (history os c))))) = Ok tt /\
  ((exists ps, checks again ps /\ checks_exactly m2 (all_bodies m2) ex2 ps) <->
   forall g1 g2, to_check m2 (all_bodies m2) ex2 g1 g2 -> ent (m_geom_bodyid m2) g1 < Z.of_nat (m_nbody m1) /\ ent (m_geom_bodyid m2) g2 < Z.of_nat (m_nbody m1)) /\
  (n <> -1 -> a_dim (c_at again) = n) /\
  (n = -1 -> forall ps1, checks_exactly m1 (all_bodies m1) ex1 ps1 -> a_dim (c_at again) = Z.of_nat (List.length ps1)).
Proof.
  intros Hn Ho Ho' Hb1 Hw1 Hb2 Hw2 Hle H1 H2 again. destruct (default_rebound name gain gf sdg dm er n c os os' m1 m2 ex1 ex2 Hn Ho Ho' Hb1 Hw1 Hb2 Hw2 Hle H1 H2) as (U1 & ps1 & ps2 & C1 & C2 & C3 & C4 & C5).
  fold again in C3, C5. split; [exact U1|]. split; [|split].
  - assert (Sub : forall b, In b (all_bodies m1) -> In b (all_bodies m2)) by (intros b; unfold all_bodies; rewrite !in_map_iff; intros (k & <- & Hk); exists k; split; [reflexivity|apply in_seq in Hk; apply in_seq; lia]).
    pose proof (same_pairs m2 (all_bodies m1) (all_bodies m2) ex2 ps2 Sub C4) as S. split.
    + intros (ps & D1 & D2) g1 g2 T. assert (ps = ps2). { destruct C3 as (s1 & k1 & X1 & Y1), D1 as (s2 & k2 & X2 & Y2). rewrite X1 in X2. injection X2 as <- <-. congruence. } subst ps.
      apply (checked_among m2 (m_nbody m1) ex2 g1 g2); [lia|exact T|]. now apply (proj1 S D2).
    + intros K. exists ps2. split; [exact C3|]. apply S. intros g1 g2 T. apply (checked_among m2 (m_nbody m1) ex2 g1 g2); [lia|exact T|now apply K].
  - intros Hne. rewrite C5. destruct (Z.eqb_spec n (-1)); [contradiction|reflexivity].
  - intros -> ps1' D. rewrite C5. cbn. f_equal. apply Nat.le_antisymm; apply NoDup_incl_length; [apply C2| |apply D|]; intros [a b] Hab; [apply D, C2|apply C2, D]; exact Hab.
Qed.

#[local] Arguments generate_collision_pairs : simpl never.
#[local] Arguments exclude_set : simpl never.
#[local] Arguments zrange : simpl never.
#[local] Arguments update_model : simpl never.
(** Once the number of rows is known no later binding, failed or not, changes it. *)
Lemma rows_kept k c os m : k <> -1 -> (exists sdg s, a_ext (c_at c) = XBarrier sdg (BSelf s) /\ sc_n s = k) -> Forall api_op os ->
  fst (update_model m (history os c)) = Ok tt -> a_dim (c_at (snd (update_model m (history os c)))) = k.
Proof.
  intros Hk H0 Ho.
  assert (I : exists sdg s, a_ext (c_at (history os c)) = XBarrier sdg (BSelf s) /\ sc_n s = k).
  { pose (P := fun a => exists sdg s, a_ext a = XBarrier sdg (BSelf s) /\ sc_n s = k). change (P (c_at (history os c))). apply api_history; auto.
    - intros a a' (sdg & s & He & En) Hs. unfold P. destruct Hs; try (rewrite He in *; discriminate); cbn; eauto 6.
      destruct (forced_other _ _ H) as (_ & _ & _ & _ & _ & ->). eauto 6.
    - intros c0 m0 (sdg & s & He & En).
      assert (HU : update_model m0 c0 = update_model_self m0 c0) by (unfold update_model, mbind, read; now rewrite He).
      rewrite HU. unfold update_model_self, mseq, mbind, seta, read, lift, ret, self_of, upd_self. cbn. rewrite He. cbn. destruct s as [d bs er e0 p0 n0]. cbn in En. subst n0. cbn.
      apply Z.eqb_neq in Hk.
      destruct bs as [|b bs]; cbn; rewrite ?He; cbn; (destruct (exclude_set m0 er []) as [ex'|e]; cbn; [|unfold P; cbn; rewrite ?He; eauto 6]); rewrite ?He; cbn;
      (match goal with |- context [generate_collision_pairs m0 ?b ex'] => destruct (generate_collision_pairs m0 b ex') as [ps'|e] end; cbn; [|unfold P; cbn; eauto 6]);
      rewrite Hk; cbn; unfold P; cbn; eauto 6. }
  destruct I as (sdg & s & He & En). intros U. pose proof (self_bind m _ _ _ He) as B.
  destruct (exclude_set m (sc_excl_raw s) []) as [ex|e]; [|congruence]. destruct (generate_collision_pairs _ _ _) as [ps|e]; [|congruence].
  cbn zeta in B. rewrite B. cbn. apply Z.eqb_neq in Hk. now rewrite En, Hk.
Qed.
Lemma rows_of_first name gain gf sdg dm bs er c os os' m1 m2 ps1 ps2 :
  new_self_collision name gain gf sdg dm bs er (-1) = Ok c -> Forall no_bind os -> Forall api_op os' ->
  let first := snd (update_model m1 (history os c)) in let again := snd (update_model m2 (history os' first)) in
  fst (update_model m1 (history os c)) = Ok tt -> checks first ps1 -> fst (update_model m2 (history os' first)) = Ok tt -> checks again ps2 ->
  a_dim (c_at first) = Z.of_nat (List.length ps1) /\ a_dim (c_at again) = Z.of_nat (List.length ps1) /\
  (a_dim (c_at again) = Z.of_nat (List.length ps2) <-> List.length ps1 = List.length ps2).
Proof.
  intros Hn Ho Ho' first again U1 C1 U2 C2. pose proof (first_state _ _ _ _ _ _ _ _ _ os Hn Ho) as E. pose proof (self_bind m1 _ _ _ E) as B. cbn [sc_excl_raw sc_bodies sc_n sc_dmin] in B.
  destruct (exclude_set m1 er []) as [ex|e]; [|congruence]. destruct (generate_collision_pairs m1 _ ex) as [ps|e]; [|congruence]. cbn zeta in B. cbn [Z.eqb] in B.
  assert (F : a_ext (c_at first) = XBarrier sdg (BSelf (mkSC dm (listed m1 bs) er (Some ex) (Some ps) (Z.of_nat (List.length ps)))) /\ a_dim (c_at first) = Z.of_nat (List.length ps)) by (unfold first; rewrite B; split; reflexivity).
  destruct F as [F1 F2]. assert (ps = ps1). { destruct C1 as (s1 & k1 & X & Y). rewrite F1 in X. injection X as <- <-. cbn in Y. congruence. } subst ps.
  assert (A : a_dim (c_at again) = Z.of_nat (List.length ps1)). { apply (rows_kept (Z.of_nat (List.length ps1)) first os' m2); [lia| |exact Ho'|exact U2]. do 2 eexists. split; [exact F1|reflexivity]. }
  split; [exact F2|]. split; [exact A|]. rewrite A. lia.
Qed.
