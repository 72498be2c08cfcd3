(** Splitting a task into tasks over fewer axes. *)
From Verif Require Import Base Lin LinFacts Mjx Typing Component Problem SpecComponent SpecJoint SpecHistory SpecProblem Rot SpecConf Conf FrameJac JaxComponents LocalIK SpecQP SpecSolve SpecMotion SpecTree SpecShape SpecFit SpecValue SpecDeriv SpecMask SpecSplit.
From Verif Require Import QPFacts QPThms QPThms3 MotionFacts2 ConfFacts3 ConfFacts4 FitFacts DerivFacts DerivThms MaskFacts MaskFacts2.
From Coq Require Import Permutation.
Open Scope R_scope.

Lemma vsum_cat a b : vsum (a ++ b) = vsum a + vsum b.
Proof. induction a as [|x a IH]; cbn; [lra|]. change (fold_right Rplus 0 ?l) with (vsum l). rewrite IH. lra. Qed.
Lemma nodup_left {A} (a b : list A) : NoDup (a ++ b) -> NoDup a.
Proof. induction a as [|x a IH]; cbn; intros H; [constructor|]. inversion H as [|? ? N1 N2]; subst. constructor; [|auto]. intros I. apply N1. apply in_or_app. now left. Qed.
Lemma nodup_right {A} (a b : list A) : NoDup (a ++ b) -> NoDup b.
Proof. induction a as [|x a IH]; cbn; intros H; [exact H|]. inversion H; subst. auto. Qed.
Lemma parts_bound parts n : Permutation (List.concat parts) (seq 0 n) -> Forall (fun as_ => NoDup as_ /\ Forall (fun a => (a < n)%nat) as_) parts.
Proof.
  intros P. assert (Nd : NoDup (List.concat parts)) by (eapply Permutation_NoDup; [symmetry; exact P|apply seq_NoDup]).
  assert (B : forall a, In a (List.concat parts) -> (a < n)%nat) by (intros a Ha; apply (Permutation_in _ P) in Ha; apply in_seq in Ha; lia). clear P. induction parts as [|p parts IH]; [constructor|]. cbn in *. constructor.
  - split; [now apply nodup_left in Nd|]. apply Forall_forall. intros a Ha. apply B. apply in_or_app. now left.
  - apply IH; [now apply nodup_right in Nd|]. intros a Ha. apply B. apply in_or_app. now right.
Qed.
Lemma parts_apart parts n as_ a b : Permutation (List.concat parts) (seq 0 n) -> In as_ parts -> In a as_ -> ~ In b as_ -> ~ exists p, In p parts /\ In a p /\ In b p.
Proof.
  intros P Hp Ha Hb (p & I1 & I2 & I3). assert (Nd : NoDup (List.concat parts)) by (eapply Permutation_NoDup; [symmetry; exact P|apply seq_NoDup]). clear P n.
  assert (K : forall x, In x parts -> In a x -> x = as_ \/ False); [|destruct (K p I1 I2) as [->|[]]; contradiction].
  intros x I4 I5. left. clear - Nd I4 I5 Hp Ha. revert Nd Hp I4. induction parts as [|q parts IH]; intros Nd Hp I4; [destruct Hp|]. destruct Hp as [E|Hp], I4 as [E'|I4]; subst; try reflexivity.
  - exfalso. cbn in Nd. clear IH. induction as_ as [|c l IHl]; [contradiction|]. cbn in Nd. inversion Nd as [|? ? N1 N2]; subst. destruct Ha as [->|Ha]; [|now apply IHl]. apply N1. apply in_or_app. right. apply in_concat. eauto.
  - exfalso. cbn in Nd. clear IH. induction x as [|c l IHl]; [contradiction|]. cbn in Nd. inversion Nd as [|? ? N1 N2]; subst. destruct I5 as [->|I5]; [|now apply IHl]. apply N1. apply in_or_app. right. apply in_concat. eauto.
  - apply IH; auto. cbn in Nd. now apply nodup_right in Nd.
Qed.
(** The squared weighted length is the sum over the parts. *)
Lemma split_weight parts W x : let n := List.length W in is_mat n n W -> List.length x = n -> Permutation (List.concat parts) (seq 0 n) -> (forall a b, ~ (exists as_, In as_ parts /\ In a as_ /\ In b as_) -> nth b (nth a W []) 0 = 0) ->
  sq (mv W x) = vsum (map (fun as_ => sq (mv (block_at as_ W) (coords as_ x))) parts).
Proof.
  cbv zeta. intros [HW1 HW2] Hx P O. set (n := List.length W) in *. unfold sq at 1. rewrite (dot_sum (mv W x) (mv W x) n) by now rewrite mv_length. rewrite <- (sum_perm _ _ _ P).
  pose proof (parts_bound parts n P) as Bd. rewrite Forall_forall in Bd.
  assert (S : forall f : nat -> R, vsum (map f (List.concat parts)) = vsum (map (fun as_ => vsum (map f as_)) parts)).
  { intros f. clear. induction parts as [|p parts IH]; [reflexivity|]. cbn [List.concat map]. rewrite map_app, vsum_cat, IH. reflexivity. }
  rewrite S. f_equal. apply map_ext_in. intros as_ Ha. destruct (Bd as_ Ha) as [Nd Fa]. rewrite Forall_forall in Fa.
  replace (mv (block_at as_ W) (coords as_ x)) with (coords as_ (mv W x)); [unfold sq; now rewrite dot_coords|].
  unfold block_at, rows_at, mv at 2. rewrite !map_map. unfold coords at 1. apply map_ext_in. intros a Hin. rewrite mv_nth by now apply Fa. rewrite dot_coords. rewrite (dot_sum _ _ n); [|rewrite Forall_forall in HW2; apply HW2, nth_In; now apply Fa|exact Hx].
  apply sum_select; [exact Nd|now apply Forall_forall|]. intros b Hb. rewrite O; [ring|]. now apply (parts_apart parts n as_).
Qed.
Section Split.
Context (L : lib) (nv : nat) (q : vec).
Lemma part_jacobian as_ j j' J : let d := update L (j_model j) q in masked as_ j j' -> j_model j' = j_model j ->
  (automatic j -> sound_jac (l_jacrev L) /\ smooth L j 3 q /\ kinematic L j /\ kinematic L j' /\ List.length q = m_nq (j_model j) /\ d_qpos d = q) -> jacobian L j d = Ok J -> jacobian L j' d = Ok (rows_at as_ J).
Proof.
  cbv zeta. intros Hm Em Ha HJ. assert (D : automatic j \/ ~ automatic j) by (unfold automatic; destruct (j_ext j) as [? ? []|? []|? ? ? []]; tauto).
  destruct D as [A|A]; [|now apply (masked_jacobian L as_ j)]. destruct (Ha A) as (H1 & H2 & H3 & H4 & H5 & H6). now apply (masked_jacobian_auto L as_ j j' q J).
Qed.
Lemma split_cost parts j js : let d := update L (j_model j) q in split_into parts j js -> fits L nv d j ->
  (automatic j -> sound_jac (l_jacrev L) /\ smooth L j 3 q /\ kinematic L j /\ Forall (kinematic L) js /\ List.length q = m_nq (j_model j) /\ d_qpos d = q) ->
  forall v x, cost_of L d j v x <-> total_cost L d js v x.
Proof.
  cbv zeta. intros (W & lm & k & E & P & O & F) (J & e & EJ & Ee & MJ & Lg & FW) Ha v x. rewrite E in FW. set (d := update L (j_model j) q) in *.
  assert (Wn : List.length e = List.length W) by (symmetry; apply FW). set (n := List.length W) in *. rewrite Wn in *.
  assert (Lgd : List.length (gained j e) = n) by (unfold gained; rewrite vmul_length; rewrite ?map_length; congruence).
  assert (Lmv : List.length (mv J v) = n) by (rewrite mv_length; apply MJ). pose proof (parts_bound parts n P) as Bd.
  set (c := fun as_ => 1 / 2 * sq (mv (block_at as_ W) (coords as_ (vadd (mv J v) (gained j e)))) + 1 / 2 * (lm * sq (mv (block_at as_ W) (coords as_ (gained j e)))) * sq v).
  assert (C : Forall2 (fun j' z => cost_of L d j' v z) js (map c parts)).
  { assert (Hk : automatic j -> Forall (kinematic L) js) by (intros A; apply Ha; exact A).
    assert (G : forall ps, Forall2 (fun as_ j' => masked as_ j j' /\ j_model j' = j_model j /\ j_gain j' = coords as_ (j_gain j) /\ (forall x, j_gain_fn j' x = j_gain_fn j x) /\ exists k', j_ext j' = JTask (block_at as_ W) lm k') ps js ->
      Forall (fun as_ => NoDup as_ /\ Forall (fun a => (a < n)%nat) as_) ps -> Forall2 (fun j' z => cost_of L d j' v z) js (map c ps)); [|now apply G].
    clear F. induction js as [|j' js IH]; intros ps Fp Bp; inversion Fp as [|as_ ? ps' ? (Hm & Em & Eg & Ef & k' & E') F']; subst; [constructor|]. inversion Bp as [|? ? [Nd Fa] Bp']; subst. cbn [map]. constructor.
    - assert (HJ : jacobian L j' d = Ok (rows_at as_ J)).
      { apply part_jacobian; auto. intros A. destruct (Ha A) as (H1 & H2 & H3 & H4 & H5 & H6). apply Forall_inv in H4. auto 10. }
      unfold c. rewrite coords_vadd by congruence. rewrite <- (coords_gained n as_ j j' e Eg Ef Wn Lg Fa). rewrite <- (mv_rows n as_ J v (proj1 MJ) Fa).
      apply (cost_task L d j' v (block_at as_ W) lm k'); [exact E'|exact HJ|]. now apply (masked_value L as_ j j' d e).
    - apply IH; auto. intros A. destruct (Ha A) as (H1 & H2 & H3 & H4 & H5 & H6). apply Forall_inv_tail in H4. auto 10. intros A. specialize (Hk A). now apply Forall_inv_tail in Hk. }
  assert (T : 1 / 2 * sq (mv W (vadd (mv J v) (gained j e))) + 1 / 2 * (lm * sq (mv W (gained j e))) * sq v = vsum (map c parts)).
  { assert (Lva : List.length (vadd (mv J v) (gained j e)) = List.length W) by (rewrite vadd_length; [exact Lgd|rewrite Lgd; exact Lmv]). rewrite (split_weight parts W (vadd (mv J v) (gained j e)) FW Lva P O), (split_weight parts W (gained j e) FW Lgd P O). unfold c. generalize (sq v) as s. intros s. clear. induction parts as [|p parts IH]; [cbn; ring|]. cbn [map vsum fold_right]. change (fold_right Rplus 0 ?l) with (vsum l). rewrite <- IH. ring. }
  split.
  - intros H. exists (map c parts). split; [exact C|]. rewrite <- T. inversion H; congruence.
  - intros H. assert (X : x = vsum (map c parts)) by (apply (total_cost_fun L d js v); [exact H|exists (map c parts); auto]). rewrite X, <- T. now apply (cost_task L d j v W lm k).
Qed.
End Split.
Lemma total_app_iff L d a b v x : total_cost L d (a ++ b) v x <-> exists y z, total_cost L d a v y /\ total_cost L d b v z /\ x = y + z.
Proof.
  split.
  - intros (xs & F & ->). apply Forall2_app_inv_l in F as (p & r & F1 & F2 & ->). exists (vsum p), (vsum r). split; [exists p; auto|]. split; [exists r; auto|]. apply vsum_cat.
  - intros (y & z & (p & F1 & ->) & (r & F2 & ->) & ->). exists (p ++ r). split; [now apply Forall2_app|]. symmetry. apply vsum_cat.
Qed.
Lemma total_single L d j v x : total_cost L d [j] v x <-> cost_of L d j v x.
Proof.
  split.
  - intros (xs & F & ->). inversion F as [|? y ? ys H1 H2]; subst. inversion H2; subst. cbn. now rewrite Rplus_0_r.
  - intros H. exists [x]. split; [constructor; [exact H|constructor]|]. cbn. lra.
Qed.
Lemma total_perm L d v l l' : Permutation l l' -> forall x, total_cost L d l v x -> total_cost L d l' v x.
Proof.
  intros P. induction P as [|a l l' P IH|a b l|l l' l'' P1 IH1 P2 IH2]; intros x H; auto.
  - change (a :: l) with ([a] ++ l) in H. change (a :: l') with ([a] ++ l'). apply total_app_iff in H as (y & z & A & B & ->). apply total_app_iff. exists y, z. auto.
  - destruct H as (xs & H & ->). inversion H as [|? y ? ys H1 H2]; subst. inversion H2 as [|? z ? zs H3 H4]; subst. exists (z :: y :: zs). split; [repeat (constructor; [assumption|]); assumption|]. cbn. lra.
Qed.
Lemma split_best L nv q pd pd' l1 j l2 parts js : let d := update L (jd_model pd) q in same_setting pd pd' -> comps_of pd = l1 ++ j :: l2 -> Permutation (comps_of pd') (l1 ++ js ++ l2) -> split_into parts j js -> j_model j = jd_model pd -> fits L nv d j ->
  (automatic j -> sound_jac (l_jacrev L) /\ smooth L j 3 q /\ kinematic L j /\ Forall (kinematic L) js /\ List.length q = m_nq (jd_model pd) /\ d_qpos d = q) ->
  forall v, best L d pd v <-> best L d pd' v.
Proof.
  cbv zeta. intros (Em & E1 & E2) Ec Ec' Hs Mj Hf Ha. set (d := update L (jd_model pd) q) in *. pose proof Hs as (W & lm & k & Ex & _ & _ & F). pose proof (split_cost L nv q parts j js) as S. cbv zeta in S. rewrite Mj in S. specialize (S Hs Hf Ha).
  assert (TP : forall v x l l', Permutation l l' -> total_cost L d l v x -> total_cost L d l' v x) by (intros v x l l' P; now apply total_perm).
  assert (T : forall v x, total_cost L d (comps_of pd) v x <-> total_cost L d (comps_of pd') v x).
  { intros v x. rewrite Ec. transitivity (total_cost L d (l1 ++ js ++ l2) v x); [|split; apply TP; [symmetry|]; exact Ec']. change (j :: l2) with ([j] ++ l2). rewrite !total_app_iff. split.
    - intros (y & z & A & B & ->). apply total_app_iff in B as (b & c & B1 & B2 & ->). exists y, (b + c). split; [exact A|]. split; [|reflexivity]. apply total_app_iff. exists b, c. split; [apply S; now apply total_single|]. auto.
    - intros (y & z & A & B & ->). apply total_app_iff in B as (b & c & B1 & B2 & ->). exists y, (b + c). split; [exact A|]. split; [|reflexivity]. apply total_app_iff. exists b, c. split; [apply total_single; now apply S|]. auto. }
  assert (A : forall v, admissible L d pd v <-> admissible L d pd' v).
  { intros v. unfold admissible. rewrite Em, E1, E2, Ec. set (Q := fun j => (is_barrier j = true -> cbf L d v j) /\ (is_hard j = true -> holds_exactly L d v j)).
    assert (G : Forall Q (l1 ++ j :: l2) <-> Forall Q (comps_of pd')); [|now rewrite G].
    transitivity (Forall Q (l1 ++ js ++ l2)); [|split; intros H; eapply Permutation_Forall; try exact H; [symmetry|]; exact Ec'].
    assert (Qj : Q j) by (unfold Q, is_barrier, is_hard; rewrite Ex; split; discriminate).
    assert (Qs : Forall Q js). { clear - F. induction F as [|as_ j' ps js (_ & _ & _ & _ & k' & E') F IH]; constructor; [|exact IH]. unfold Q, is_barrier, is_hard. rewrite E'. split; discriminate. }
    rewrite !Forall_app, Forall_cons_iff. tauto. }
  intros v. unfold best. rewrite A. split; intros (B1 & x & B2 & B3); (split; [exact B1|]); exists x; (split; [now apply T|]); intros w Hw; apply A in Hw; destruct (B3 w Hw) as (y & B4 & B5); exists y; (split; [now apply T|exact B5]).
Qed.
(** Scalar and vector costs give diagonal weights. *)
Lemma diagonal_splits parts W : (forall a b, a <> b -> nth b (nth a W []) 0 = 0) -> Permutation (List.concat parts) (seq 0 (List.length W)) -> forall a b, ~ (exists as_, In as_ parts /\ In a as_ /\ In b as_) -> nth b (nth a W []) 0 = 0.
Proof.
  intros D P a b H. destruct (Nat.eq_dec a b) as [->|N]; [|now apply D]. destruct (Nat.lt_ge_cases b (List.length W)) as [Hb|Hb].
  - exfalso. apply H. assert (I : In b (List.concat parts)) by (eapply Permutation_in; [symmetry; exact P|apply in_seq; lia]). apply in_concat in I as (p & I1 & I2). eauto.
  - rewrite (nth_overflow W) by exact Hb. destruct b; reflexivity.
Qed.
