(** What the rows of the self-collision Jacobian are, for any list of pairs. *)
From Verif Require Import Base Lin LinFacts Mjx Typing Component SpecComponent SpecJoint SpecHistory Rot FrameJac Collide JaxComponents.
From Verif Require Import SpecCollision SpecTree SpecShape SpecContact SpecSelf SpecRows.
From Verif Require Import CollisionPairs CollideFacts CollideFacts2 CollideFacts3 CollideFacts4 QPFacts MotionFacts MotionFacts2 ConfFacts3 TreeFacts FrameFacts.
Open Scope R_scope.

Lemma jx_idx_clamped {A} (l : list A) i a : l <> [] -> jx_idx l (Z.of_nat i) = Ok (nth (Nat.min i (List.length l - 1)) l a).
Proof.
  intros H. unfold jx_idx. assert (0 < List.length l)%nat by (destruct l; [congruence|cbn; lia]). destruct (Z.ltb_spec (Z.of_nat i) 0); [lia|].
  replace (Z.to_nat (Z.max 0 (Z.min (Z.of_nat i) (Z.of_nat (List.length l) - 1)))) with (Nat.min i (List.length l - 1)) by lia.
  rewrite (nth_error_nth' l a) by lia. reflexivity.
Qed.

Lemma self_rows_exact L dm n0 j d ps h : self_barrier dm n0 j -> checked_pairs j ps -> full_table (l_coll L) (j_model j) ps ->
  wf_model (j_model j) -> wf_data (j_model j) d -> ps <> [] -> call L j d = Ok h ->
  exists cs l J, compute_collision_pairs (l_coll L) (j_model j) d ps = Ok cs /\ side_by_side cs l /\
    (exists a, all_contacts L (j_model j) d ps a /\ Permutation l a) /\
    jacobian L j d = Ok J /\ is_mat (List.length h) (m_nv (j_model j)) J /\
    forall i x row, nth_error h i = Some x -> nth_error J i = Some row ->
      exists k g c, nth_error l k = Some (g, c) /\ x = ct_dist c - dm /\ distance_rate (j_model j) d (pair_at ps k) c row.
Proof.
  intros Hj (sdg & dv & n & E) HT Hm Hd Hne Hc. destruct (self_barrier_facts _ _ _ Hj) as ((Wb & Wg) & D0 & _ & sdg' & ps' & E' & Fp). rewrite E in E'. injection E' as <- -> <- ->.
  set (m := j_model j) in *. destruct (contacts_attached (l_coll L) m d ps Wg Fp HT) as (cs & l & rs & El & Sl & Rl & Pl & _). inversion Sl; subst; clear Sl.
  exists (arrays l), l. unfold call in Hc. rewrite E in Hc. unfold call_self in Hc. fold m in Hc. change (mkCs _ _ _ _) with (arrays l) in El. rewrite El in Hc. cbn [bind cs_dist arrays] in Hc. set (ds := map (fun x => ct_dist (snd x)) l) in *.
  destruct (smallest ds (j_dim j)) as [idx|e] eqn:Es; [|discriminate]. cbn [bind] in Hc.
  assert (Rg : (0 <= j_dim j <= Z.of_nat (List.length ds))%Z).
  { split; [exact D0|]. destruct (Z_lt_le_dec (Z.of_nat (List.length ds)) (j_dim j)) as [C|C]; [|exact C]. rewrite (smallest_raises ds (j_dim j)) in Es by lia. discriminate. }
  destruct (smallest_spec ds (j_dim j) Rg) as (idx' & Es' & _ & Fi & S). rewrite Es in Es'. injection Es' as <-. destruct S as [S _]. rewrite <- S in Hc at 1. rewrite bc2_const in Hc. injection Hc as <-.
  set (bd := map (fun p => (ent (m_geom_bodyid m) (fst p), ent (m_geom_bodyid m) (snd p))) ps).
  set (F := fun i => do dist <- jx_idx ds (Z.of_nat i); do p <- jx_idx (map (fun x => ct_pos (snd x)) l) (Z.of_nat i); do fr <- jx_idx (map (fun x => ct_frame (snd x)) l) (Z.of_nat i); do b <- jx_idx bd (Z.of_nat i); jac_self_row m d dist p (mkV (m00 fr) (m01 fr) (m02 fr)) (fst b) (snd b)).
  assert (EJ : jacobian L j d = mapM F idx).
  { unfold jacobian. rewrite E. unfold jac_self. fold m. rewrite El. cbn [bind cs_dist arrays]. fold ds. rewrite Es. cbn [bind]. rewrite mapM_pairs by exact Fp. cbn [bind]. destruct ps; [congruence|]. reflexivity. }
  assert (R : forall i, In i idx -> exists g c row, nth_error l i = Some (g, c) /\ F i = Ok row /\ distance_rate m d (pair_at ps i) c row).
  { intros i Hi. rewrite Forall_forall in Fi. specialize (Fi i Hi). unfold ds in Fi. rewrite map_length in Fi. destruct (nth_error l i) as [[g c]|] eqn:Ei; [|apply nth_error_None in Ei; lia].
    assert (Gp : geom_pair m (pair_at ps i)). { rewrite Forall_forall in Fp. apply Fp. unfold pair_at. apply nth_In. destruct ps; [congruence|cbn; lia]. } destruct Gp as [G1 G2].
    assert (Bd : forall z, is_geom m z -> in_range (m_nbody m) (ent (m_geom_bodyid m) z)).
    { intros z Hz. destruct Hm as (_ & _ & _ & _ & _ & Gb & _). rewrite Forall_forall in Gb. apply Gb. unfold ent. apply nth_In. unfold is_geom in Hz. lia. }
    destruct (row_is_rate m d Hm Hd c (pair_at ps i) _ _ eq_refl eq_refl (Bd _ G1) (Bd _ G2)) as (row & Er & Hr). exists g, c, row. split; [reflexivity|]. split; [|exact Hr].
    unfold F, ds. rewrite (jx_idx_nth _ i (ct_dist c)) by (erewrite map_nth_error by exact Ei; reflexivity). cbn [bind].
    rewrite (jx_idx_nth _ i (ct_pos c)) by (erewrite map_nth_error by exact Ei; reflexivity). cbn [bind].
    rewrite (jx_idx_nth _ i (ct_frame c)) by (erewrite map_nth_error by exact Ei; reflexivity). cbn [bind].
    rewrite (jx_idx_clamped bd i (ent (m_geom_bodyid m) (fst (0, 0)%Z), ent (m_geom_bodyid m) (snd (0, 0)%Z))) by (unfold bd; destruct ps; [congruence|discriminate]). cbn [bind].
    unfold bd. rewrite map_length. rewrite (map_nth (fun p => (ent (m_geom_bodyid m) (fst p), ent (m_geom_bodyid m) (snd p))) ps (0, 0)%Z). cbn [fst snd]. exact Er. }
  destruct (mapM_total F idx) as (J & HJ). { intros i Hi. destruct (R i Hi) as (g & c & row & _ & Hr & _). eauto. }
  exists J. split; [exact El|]. split; [constructor|]. split. { exists (List.concat rs). split; [|exact Pl]. exists rs. now split. }
  rewrite EJ. split; [exact HJ|]. pose proof (mapM_length _ _ _ HJ) as LJ. rewrite !map_length.
  assert (NJ : forall i row, nth_error J i = Some row -> exists k, nth_error idx i = Some k /\ F k = Ok row).
  { intros i row Hr. assert (i < List.length idx)%nat by (rewrite <- LJ; apply nth_error_Some; congruence). destruct (nth_error idx i) as [k|] eqn:Ek; [|apply nth_error_None in Ek; lia]. exists k. split; [reflexivity|].
    pose proof (mapM_nth _ _ _ 0%nat [] i HJ H) as EE. rewrite (nth_error_nth _ _ 0%nat Ek) in EE. rewrite (nth_error_nth _ _ [] Hr) in EE. exact EE. }
  split.
  - split; [exact LJ|]. rewrite Forall_forall. intros row Hr. apply In_nth_error in Hr. destruct Hr as (i & Hr). destruct (NJ i row Hr) as (k & Hk & Ek). destruct (R k (nth_error_In _ _ Hk)) as (g & c & row' & _ & Er & (Hl & _)). rewrite Ek in Er. injection Er as <-. exact Hl.
  - intros i x row Hx Hr. destruct (NJ i row Hr) as (k & Hk & Ek). destruct (R k (nth_error_In _ _ Hk)) as (g & c & row' & Hg & Er & Hd').
    rewrite Ek in Er. injection Er as <-. exists k, g, c. split; [exact Hg|]. split; [|exact Hd'].
    rewrite map_map in Hx. erewrite map_nth_error in Hx by exact Hk. injection Hx as <-. f_equal. unfold ds. apply nth_error_nth. erewrite map_nth_error by exact Hg. reflexivity.
Qed.

Lemma rate_bodies m d p g c row : same_bodies m p g -> distance_rate m d p c row -> distance_rate m d g c row.
Proof. intros [A B]. unfold distance_rate. now rewrite A, B. Qed.

Lemma self_rows_right L dm n0 j d ps h : self_barrier dm n0 j -> checked_pairs j ps -> full_table (l_coll L) (j_model j) ps ->
  wf_model (j_model j) -> wf_data (j_model j) d -> ps <> [] -> call L j d = Ok h ->
  (forall cs l k g c, compute_collision_pairs (l_coll L) (j_model j) d ps = Ok cs -> side_by_side cs l -> nth_error l k = Some (g, c) -> same_bodies (j_model j) (pair_at ps k) g) ->
  exists J, jacobian L j d = Ok J /\ rows_match L (j_model j) d ps dm h J.
Proof.
  intros Hj Hp HT Hm Hd Hne Hc Hb. destruct (self_rows_exact L dm n0 j d ps h Hj Hp HT Hm Hd Hne Hc) as (cs & l & J & El & Sl & (a & Ha & Pa) & EJ & [LJ _] & R).
  exists J. split; [exact EJ|]. split; [exact LJ|]. intros l' i x row Hl' Hx Hr. rewrite (all_contacts_fun _ _ _ _ _ _ Hl' Ha). destruct (R i x row Hx Hr) as (k & g & c & Hk & Ex & Hd').
  exists g, c. split; [eapply Permutation_in; [exact Pa|]; eapply nth_error_In; exact Hk|]. split; [exact Ex|]. eapply rate_bodies; [|exact Hd']. eapply Hb; eassumption.
Qed.

Lemma arrays_inj l : forall l', arrays l = arrays l' -> l = l'.
Proof.
  induction l as [|[g [x p f]] l IH]; intros [|[g' [x' p' f']] l'] H; try discriminate; [reflexivity|].
  pose proof (f_equal cs_geom H) as A. pose proof (f_equal cs_dist H) as B. pose proof (f_equal cs_pos H) as C. pose proof (f_equal cs_frame H) as D. cbn in *.
  injection A as -> A. injection B as -> B. injection C as -> C. injection D as -> D. f_equal. apply IH. unfold arrays. congruence.
Qed.
Lemma side_by_side_fun l l' : side_by_side (arrays l) l' -> l' = l.
Proof. intros H. remember (arrays l) as cs eqn:E. destruct H as [l0]. now apply arrays_inj. Qed.
