(** Rows of the self-collision Jacobian. *)
From Verif Require Import Base Lin LinFacts Mjx Typing Component SpecComponent SpecJoint SpecHistory Rot FrameJac Collide JaxComponents.
From Verif Require Import SpecCollision SpecTree SpecShape SpecContact SpecSelf.
From Verif Require Import CollisionPairs CollideFacts CollideFacts2 CollideFacts3 QPFacts MotionFacts MotionFacts2 ConfFacts3 TreeFacts FrameFacts.
Open Scope R_scope.

Section Rows.
Context (m : mjmodel) (d : mjdata) (Hm : wf_model m) (Hd : wf_data m d).
Lemma point_rows_spec p b : (b < m_nbody m)%nat -> exists rows, point_rows m d p (Z.of_nat b) = Ok rows /\ List.length rows = m_nv m /\
  forall k v, (k < m_nv m)%nat -> point_velocity m d (v3_list p) b k v -> v = v3_list (fst (nth k rows (v3_zero, v3_zero))).
Proof.
  intros Hb. pose proof Hm as (_ & wft & wfd & _).
  destruct (dof_mask_spec m wft b wfd Hb) as (mk & Emk & Lmk & Smk). destruct (offset_spec m d Hm Hd p b Hb) as (c & Ec & Pc).
  destruct (cdof_spec m d Hd) as (cd & Ecd & Lcd & Scd). unfold point_rows. rewrite Emk. cbn [bind]. rewrite Ec. cbn [bind]. rewrite Ecd. cbn [bind].
  rewrite Lcd, Lmk, Nat.eqb_refl. cbn [negb]. eexists. split; [reflexivity|]. split; [rewrite map_length, combine_length; lia|].
  intros k v Hk Hv. rewrite (map_combine_nth _ cd mk (v3_zero, v3_zero) false) by lia. specialize (Scd k Hk). specialize (Smk k Hk).
  destruct (nth k cd (v3_zero, v3_zero)) as [a l]. cbn [fst snd] in *. destruct Hv as [[N ->]|[I ->]].
  - destruct (nth k mk false); [exfalso; apply N; now apply Smk|]. reflexivity.
  - rewrite (proj2 Smk I). rewrite Pc, Scd. cbn [gate]. destruct a, l, p, c. cbn. reflexivity.
Qed.
Lemma row_is_rate c g b1 b2 : b1 = ent (m_geom_bodyid m) (fst g) -> b2 = ent (m_geom_bodyid m) (snd g) -> in_range (m_nbody m) b1 -> in_range (m_nbody m) b2 ->
  exists row, jac_self_row m d (ct_dist c) (ct_pos c) (ct_normal c) b1 b2 = Ok row /\ distance_rate m d g c row.
Proof.
  intros E1 E2 R1 R2. unfold jac_self_row. unfold in_range in *. rewrite <- (Z2Nat.id b1), <- (Z2Nat.id b2) by lia.
  destruct (point_rows_spec (v3_sub (ct_pos c) (v3_scale (ct_dist c / 2) (ct_normal c))) (Z.to_nat b1) ltac:(lia)) as (r1 & -> & L1 & S1).
  destruct (point_rows_spec (v3_add (ct_pos c) (v3_scale (ct_dist c / 2) (ct_normal c))) (Z.to_nat b2) ltac:(lia)) as (r2 & -> & L2 & S2).
  cbn [bind]. eexists. split; [reflexivity|]. unfold distance_rate. cbv zeta. change (contact_normal c) with (v3_list (ct_normal c)). split; [rewrite map_length, combine_length; lia|].
  intros k v1 v2 Hk H1 H2. rewrite (map_combine_nth _ r1 r2 (v3_zero, v3_zero) (v3_zero, v3_zero)) by lia. cbn [fst snd].
  rewrite <- E1 in H1. rewrite <- E2 in H2.
  rewrite (S1 k v1 Hk) by (destruct (ct_pos c), (ct_normal c); exact H1). rewrite (S2 k v2 Hk) by (destruct (ct_pos c), (ct_normal c); exact H2).
  destruct (ct_normal c), (fst (nth k r1 _)), (fst (nth k r2 _)). unfold v3_dot, v3_sub, v3_list, dot, vmul, vsub, vmap2. cbn. ring.
Qed.
End Rows.

(** Pairs of one sort form one group, so contacts come in the order of the pairs. *)
Lemma picks_all {A} (P : A -> Prop) l r : picks P l r -> (forall x, In x l -> P x) -> r = l.
Proof. induction 1 as [|x l r Hx H IH|x l r Hx H IH]; intros F; [reflexivity| |]. - f_equal. apply IH. auto with *. - exfalso. apply Hx, F. now left. Qed.
Lemma map_orient m ps : (forall p, In p ps -> orient m p = p) -> map (orient m) ps = ps.
Proof. induction ps as [|p ps IH]; intros H; cbn; [reflexivity|]. rewrite H by now left. f_equal. apply IH. auto with *. Qed.
Lemma one_group L m d ps : wf_geoms m -> Forall (geom_pair m) ps -> full_table (l_coll L) m ps -> one_sort L m ps -> ps <> [] ->
  exists l, compute_collision_pairs (l_coll L) m d ps = Ok (arrays l) /\ map fst l = ps /\ all_contacts L m d ps l.
Proof.
  intros Hg Hp HT (O1 & O2 & O3) Hne. pose proof HT as [T1 T2]. destruct (grouping m ps Hg Hp) as (gs & Eg & Pg & Dg). rewrite (map_orient m ps O1) in *.
  assert (G : forall k g, In (k, g) gs -> g = ps).
  { intros k g Hk. destruct (Dg k g Hk) as [Hn Hs]. destruct g as [|p g']; [congruence|]. destruct (Hs p (or_introl eq_refl)) as [_ Pk]. apply (picks_all _ _ _ Pk). intros x Hx. apply O2; [|exact Hx].
    eapply Permutation_in; [exact Pg|]. apply in_concat. exists (p :: g'). split; [|now left]. change (p :: g') with (snd (k, p :: g')). now apply in_map. }
  assert (N1 : exists k, gs = [(k, ps)]).
  { destruct gs as [|[k g] gs]; [cbn in Pg; apply Permutation_nil in Pg; congruence|]. exists k. rewrite (G k g (or_introl eq_refl)) in *. destruct gs as [|[k2 g2] gs]; [reflexivity|]. exfalso.
    rewrite (G k2 g2 (or_intror (or_introl eq_refl))) in *. apply Permutation_length in Pg. cbn in Pg. rewrite !app_length in Pg. destruct ps; [congruence|]. cbn in Pg. lia. }
  destruct N1 as (k & ->). destruct (Dg k ps (or_introl eq_refl)) as [_ Hk].
  assert (Kk : forall p, In p ps -> k = key_of m p). { intros p Hpp. apply key_describes_iff. now apply Hk. }
  destruct ps as [|p0 ps0]; [congruence|]. destruct (O3 p0 (or_introl eq_refl)) as (f & Ef).
  assert (Ek : l_coll L (k_types k) = Some (1%nat, f)) by (rewrite (Kk p0 (or_introl eq_refl)); exact Ef).
  remember (p0 :: ps0) as ps eqn:Eps.
  assert (U : compute_collision_pairs (l_coll L) m d ps = (do groups <- geom_groups m ps; do cs <- mapM (run_group (l_coll L) m d) groups; let cg := by_condim cs in Ok (cat_contacts (flat_map (fun k => zassoc k cg) (zsort (map fst cg)))))) by (rewrite Eps; reflexivity).
  rewrite U, Eg. cbn [bind mapM]. rewrite (run_group_ok (l_coll L) m d k ps 1 f T1 Ek (le_n 1)). cbn [bind]. cbv zeta. cbn -[cat_contacts]. rewrite Z.eqb_refl. cbn -[cat_contacts].
  exists (flat_map (rep (l_coll L) m d k) ps). split; [|split].
  - change [arrays (flat_map (rep (l_coll L) m d k) ps)] with (map arrays [flat_map (rep (l_coll L) m d k) ps]). rewrite cat_arrays. cbn. now rewrite app_nil_r.
  - unfold rep. rewrite Ek. clear - T1 Ek. induction ps as [|p ps IH]; [reflexivity|]. cbn. rewrite map_app, IH, map_map. cbn. pose proof (T1 _ _ _ m d k p Ek) as Lf. destruct (f m d k p) as [|c [|? ?]]; cbn in Lf; try lia. reflexivity.
  - exists (map (rep (l_coll L) m d k) ps). split; [|apply flat_map_concat_map].
    assert (GG : forall qs, (forall q, In q qs -> In q ps) -> Forall2 (reports (l_coll L) m d) qs (map (rep (l_coll L) m d k) qs)).
    { induction qs as [|q qs IH]; intros H; cbn; constructor; [|apply IH; auto with *]. rewrite (Kk q (H q (or_introl eq_refl))). rewrite <- (O1 q (H q (or_introl eq_refl))). apply (rep_reports (l_coll L) m d ps); auto with *. }
    rewrite map_orient by exact O1. apply GG. auto.
Qed.

Lemma mapM_pairs m ps : Forall (geom_pair m) ps -> mapM (fun p => do b1 <- np_idx (m_geom_bodyid m) (fst p); do b2 <- np_idx (m_geom_bodyid m) (snd p); Ok (b1, b2)) ps =
  Ok (map (fun p => (ent (m_geom_bodyid m) (fst p), ent (m_geom_bodyid m) (snd p))) ps).
Proof.
  intros H. apply mapM_ok. induction H as [|p ps [A B] _ IH]; cbn; constructor; [|exact IH]. unfold is_geom in *. rewrite !np_idx_in by assumption. reflexivity.
Qed.
Lemma jx_idx_nth {A} (l : list A) i a : nth_error l i = Some a -> jx_idx l (Z.of_nat i) = Ok a.
Proof.
  intros H. assert (i < List.length l)%nat by (apply nth_error_Some; congruence). rewrite (jx_idx_Z _ _ a) by (unfold in_range; lia). rewrite Nat2Z.id. f_equal. now apply nth_error_nth.
Qed.

Lemma self_rows L dm n0 j d ps h : self_barrier dm n0 j -> checked_pairs j ps -> full_table (l_coll L) (j_model j) ps ->
  wf_model (j_model j) -> wf_data (j_model j) d -> one_sort L (j_model j) ps -> ps <> [] -> call L j d = Ok h ->
  exists J, jacobian L j d = Ok J /\ is_mat (List.length h) (m_nv (j_model j)) J /\ rows_match L (j_model j) d ps dm h J.
Proof.
  intros Hj (sdg & dv & n & E) HT Hm Hd HO Hne Hc. destruct (self_barrier_facts _ _ _ Hj) as ((Wb & Wg) & D0 & _ & sdg' & ps' & E' & Fp). rewrite E in E'. injection E' as <- -> <- ->.
  destruct (one_group L (j_model j) d ps Wg Fp HT HO Hne) as (l & El & Fl & Al). set (m := j_model j) in *.
  unfold call in Hc. rewrite E in Hc. unfold call_self in Hc. fold m in Hc. rewrite El in Hc. cbn [bind cs_dist arrays] in Hc. set (ds := map (fun x => ct_dist (snd x)) l) in *.
  destruct (smallest ds (j_dim j)) as [idx|e] eqn:Es; [|discriminate]. cbn [bind] in Hc.
  assert (Rg : (0 <= j_dim j <= Z.of_nat (List.length ds))%Z).
  { split; [exact D0|]. destruct (Z_lt_le_dec (Z.of_nat (List.length ds)) (j_dim j)) as [C|C]; [|exact C]. rewrite (smallest_raises ds (j_dim j)) in Es by lia. discriminate. }
  destruct (smallest_spec ds (j_dim j) Rg) as (idx' & Es' & _ & Fi & S). rewrite Es in Es'. injection Es' as <-. destruct S as [S _]. rewrite <- S in Hc at 1. rewrite bc2_const in Hc. injection Hc as <-.
  set (bd := map (fun p => (ent (m_geom_bodyid m) (fst p), ent (m_geom_bodyid m) (snd p))) ps).
  set (F := fun i => do dist <- jx_idx ds (Z.of_nat i); do p <- jx_idx (map (fun x => ct_pos (snd x)) l) (Z.of_nat i); do fr <- jx_idx (map (fun x => ct_frame (snd x)) l) (Z.of_nat i); do b <- jx_idx bd (Z.of_nat i); jac_self_row m d dist p (mkV (m00 fr) (m01 fr) (m02 fr)) (fst b) (snd b)).
  assert (EJ : jacobian L j d = mapM F idx).
  { unfold jacobian. rewrite E. unfold jac_self. fold m. rewrite El. cbn [bind cs_dist arrays]. fold ds. rewrite Es. cbn [bind]. rewrite mapM_pairs by exact Fp. cbn [bind]. destruct ps; [congruence|]. reflexivity. }
  assert (R : forall i, In i idx -> exists g c row, nth_error l i = Some (g, c) /\ F i = Ok row /\ distance_rate m d g c row).
  { intros i Hi. rewrite Forall_forall in Fi. specialize (Fi i Hi). unfold ds in Fi. rewrite map_length in Fi. destruct (nth_error l i) as [[g c]|] eqn:Ei; [|apply nth_error_None in Ei; lia].
    assert (Eg : nth_error ps i = Some g) by (rewrite <- Fl; erewrite map_nth_error by exact Ei; reflexivity).
    assert (Gp : geom_pair m g) by (rewrite Forall_forall in Fp; apply Fp; eapply nth_error_In; exact Eg). destruct Gp as [G1 G2].
    assert (Bd : forall z, is_geom m z -> in_range (m_nbody m) (ent (m_geom_bodyid m) z)).
    { intros z Hz. destruct Hm as (_ & _ & _ & _ & _ & Gb & _). rewrite Forall_forall in Gb. apply Gb. unfold ent. apply nth_In. unfold is_geom in Hz. lia. }
    destruct (row_is_rate m d Hm Hd c g _ _ eq_refl eq_refl (Bd _ G1) (Bd _ G2)) as (row & Er & Hr). exists g, c, row. split; [reflexivity|]. split; [|exact Hr].
    unfold F, ds, bd. rewrite (jx_idx_nth _ i (ct_dist c)) by (erewrite map_nth_error by exact Ei; reflexivity). cbn [bind].
    rewrite (jx_idx_nth _ i (ct_pos c)) by (erewrite map_nth_error by exact Ei; reflexivity). cbn [bind].
    rewrite (jx_idx_nth _ i (ct_frame c)) by (erewrite map_nth_error by exact Ei; reflexivity). cbn [bind].
    rewrite (jx_idx_nth _ i (ent (m_geom_bodyid m) (fst g), ent (m_geom_bodyid m) (snd g))) by (erewrite map_nth_error by exact Eg; reflexivity). cbn [bind fst snd]. exact Er. }
  destruct (mapM_total F idx) as (J & HJ). { intros i Hi. destruct (R i Hi) as (g & c & row & _ & Hr & _). eauto. }
  exists J. rewrite EJ. split; [exact HJ|]. pose proof (mapM_length _ _ _ HJ) as LJ. rewrite !map_length.
  assert (NJ : forall i row, nth_error J i = Some row -> exists k, nth_error idx i = Some k /\ F k = Ok row).
  { intros i row Hr. assert (i < List.length idx)%nat by (rewrite <- LJ; apply nth_error_Some; congruence). destruct (nth_error idx i) as [k|] eqn:Ek; [|apply nth_error_None in Ek; lia]. exists k. split; [reflexivity|].
    pose proof (mapM_nth _ _ _ 0%nat [] i HJ H) as EE. rewrite (nth_error_nth _ _ 0%nat Ek) in EE. rewrite (nth_error_nth _ _ [] Hr) in EE. exact EE. }
  split.
  - split; [exact LJ|]. rewrite Forall_forall. intros row Hr. apply In_nth_error in Hr. destruct Hr as (i & Hr). destruct (NJ i row Hr) as (k & Hk & Ek). destruct (R k (nth_error_In _ _ Hk)) as (g & c & row' & _ & Er & (Hl & _)). rewrite Ek in Er. injection Er as <-. exact Hl.
  - split; [rewrite !map_length; exact LJ|]. intros l' i x row Hl' Hx Hr. rewrite (all_contacts_fun _ _ _ _ _ _ Hl' Al). destruct (NJ i row Hr) as (k & Hk & Ek). destruct (R k (nth_error_In _ _ Hk)) as (g & c & row' & Hg & Er & Hd').
    rewrite Ek in Er. injection Er as <-. exists g, c. split; [eapply nth_error_In; exact Hg|]. split; [|exact Hd'].
    rewrite map_map in Hx. erewrite map_nth_error in Hx by exact Hk. injection Hx as <-. f_equal. unfold ds. apply nth_error_nth. erewrite map_nth_error by exact Hg. reflexivity.
Qed.

(** Without any pair there is no Jacobian. *)
Lemma self_no_pairs L dm n0 j d : self_barrier dm n0 j -> checked_pairs j [] -> j_dim j = 0%Z -> call L j d = Ok [] /\ jacobian L j d = Err IndexError.
Proof.
  intros Hj (sdg & dv & n & E) D. destruct (self_barrier_facts _ _ _ Hj) as (_ & _ & _ & sdg' & ps' & E' & _). rewrite E in E'. injection E' as <- -> <- ->. rewrite D in *.
  unfold call, jacobian. rewrite E. split; reflexivity.
Qed.
