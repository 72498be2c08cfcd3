(** Scaling all weights, and components of zero weight. *)
From Verif Require Import Base Lin LinFacts Mjx Typing Component Problem JaxComponents LocalIK SpecQP QPFacts QPThms QPThms2 QPThms3 SpecSolve SolveFacts.
Open Scope R_scope.

Lemma rescaled_call L s j : call L (rescaled s j) = call L j.
Proof. unfold call, rescaled. cbn. destruct (j_ext j) as [W lm []|g []|a [] W []]; reflexivity. Qed.
Lemma rescaled_jacobian L s j d : jacobian L (rescaled s j) d = jacobian L j d.
Proof.
  destruct j as [a b c e f x]. destruct x as [W lm []|g []|ac [] W []]; reflexivity.
Qed.
Lemma rescaled_gained s j e : gained (rescaled s j) e = gained j e.
Proof. reflexivity. Qed.
Lemma rescaled_kind s j : is_barrier (rescaled s j) = is_barrier j /\ is_hard (rescaled s j) = is_hard j.
Proof. unfold is_barrier, is_hard, rescaled. cbn. destruct (j_ext j) as [| |? [] ? ?]; auto. Qed.
Lemma sq_vscale s v : sq (vscale s v) = s * s * sq v.
Proof. unfold sq. rewrite dot_vscale_l, dot_vscale_r. ring. Qed.
Lemma rescaled_cost L d s j v x : cost_of L d j v x -> cost_of L d (rescaled s j) v (s * s * x).
Proof.
  intros H. inversion H as [W lm k J e E EJ Ee|act W k J e E EJ Ee|g k J E EJ Hf|act W k E]; subst; clear H.
  - replace (s * s * (1 / 2 * sq (mv W (vadd (mv J v) (gained j e))) + 1 / 2 * (lm * sq (mv W (gained j e))) * sq v)) with
      (1 / 2 * sq (mv (mscale s W) (vadd (mv J v) (gained (rescaled s j) e))) + 1 / 2 * (lm * sq (mv (mscale s W) (gained (rescaled s j) e))) * sq v).
    2:{ rewrite rescaled_gained, !mv_mscale, !sq_vscale. ring. }
    apply (cost_task L d (rescaled s j) v (mscale s W) lm k J e); [unfold rescaled; cbn; now rewrite E|now rewrite rescaled_jacobian|now rewrite rescaled_call].
  - replace (s * s * (1 / 2 * sq (mv W (vadd (mv J v) (gained j e))))) with (1 / 2 * sq (mv (mscale s W) (vadd (mv J v) (gained (rescaled s j) e)))).
    2:{ rewrite rescaled_gained, !mv_mscale, !sq_vscale. ring. }
    apply (cost_soft L d (rescaled s j) v act (mscale s W) k J e); [unfold rescaled; cbn; now rewrite E|now rewrite rescaled_jacobian|now rewrite rescaled_call].
  - replace (s * s * (1 / 2 * (g / frob2 J) * sq v)) with (1 / 2 * (s * s * g / frob2 J) * sq v) by (field; exact Hf).
    apply (cost_barrier L d (rescaled s j) v (s * s * g) k J); [unfold rescaled; cbn; now rewrite E|now rewrite rescaled_jacobian|exact Hf].
  - rewrite Rmult_0_r. apply (cost_hard L d (rescaled s j) v act W k). unfold rescaled. cbn. now rewrite E.
Qed.
Lemma rescaled_comps s pd : comps_of (rescaled_problem s pd) = map (rescaled s) (comps_of pd).
Proof. unfold comps_of, rescaled_problem, with_components. cbn. now rewrite !map_map. Qed.
Lemma rescaled_total L d s js v x : total_cost L d js v x -> total_cost L d (map (rescaled s) js) v (s * s * x).
Proof.
  intros (xs & F & ->). exists (map (fun x => s * s * x) xs). split.
  - induction F; cbn; constructor; [now apply rescaled_cost|assumption].
  - clear F. induction xs as [|x xs IH]; cbn; [ring|]. rewrite <- IH. ring.
Qed.
Lemma rescaled_admissible L d s pd v : admissible L d (rescaled_problem s pd) v <-> admissible L d pd v.
Proof.
  unfold admissible. rewrite rescaled_comps. cbn [jd_model jd_vmin jd_vmax rescaled_problem with_components]. rewrite Forall_map.
  assert (K : forall js, Forall (fun x => (is_barrier (rescaled s x) = true -> cbf L d v (rescaled s x)) /\ (is_hard (rescaled s x) = true -> holds_exactly L d v (rescaled s x))) js <->
    Forall (fun j => (is_barrier j = true -> cbf L d v j) /\ (is_hard j = true -> holds_exactly L d v j)) js).
  { intros js. rewrite !Forall_forall. unfold cbf, holds_exactly. split; intros H j Hj; specialize (H j Hj); rewrite rescaled_jacobian, rescaled_call, (proj1 (rescaled_kind s j)), (proj2 (rescaled_kind s j)) in *; exact H. }
  now rewrite K.
Qed.
Lemma rescaled_back s pd : s <> 0 -> Forall (fun j => True) (comps_of pd) -> rescaled_problem (/ s) (rescaled_problem s pd) = pd.
Proof.
  intros Hs _. destruct pd as [m lo hi cs]. unfold rescaled_problem, with_components. cbn. f_equal. rewrite map_map. rewrite <- (map_id cs) at 2. apply map_ext. intros [n j]. cbn. f_equal.
  destruct j as [a b c e f x]. unfold rescaled. cbn. f_equal.
  assert (M : forall W, mscale (/ s) (mscale s W) = W).
  { intros W. unfold mscale, vscale. rewrite map_map. rewrite <- (map_id W) at 2. apply map_ext. intros r. rewrite map_map. rewrite <- (map_id r) at 2. apply map_ext. intros y. field. exact Hs. }
  destruct x as [W lm k|g k|ac [] W k]; rewrite ?M; f_equal. field. exact Hs.
Qed.
Lemma rescaled_best_1 L d s pd v : best L d pd v -> best L d (rescaled_problem s pd) v.
Proof.
  intros (A & x & X & H). split; [now apply rescaled_admissible|]. rewrite rescaled_comps. exists (s * s * x). split; [now apply rescaled_total|].
  intros w Hw. apply rescaled_admissible in Hw. destruct (H w Hw) as (y & Y & Le). exists (s * s * y). split; [now apply rescaled_total|].
  apply Rmult_le_compat_l; [apply Rle_0_sqr|exact Le].
Qed.
Lemma rescaled_best L d s pd v : s <> 0 -> best L d (rescaled_problem s pd) v <-> best L d pd v.
Proof.
  intros Hs. split; [|apply rescaled_best_1]. intros H. apply (rescaled_best_1 L d (/ s)) in H. rewrite rescaled_back in H; [exact H|exact Hs|]. apply Forall_forall. auto.
Qed.

(** Zero weight. *)
Lemma zero_mv W u : zero_matrix W -> mv W u = vzero (List.length W).
Proof.
  intros H. unfold mv, vzero. induction W as [|r W IH]; [reflexivity|]. cbn. rewrite IH by (intros r' x Hr; apply H; now right). f_equal.
  assert (Hr : forall x, In x r -> x = 0) by (intros x; apply (H r x); now left). clear - Hr. revert u. induction r as [|x r IH]; intros u; [apply dot_nil_l|]. destruct u as [|y u]; [apply dot_nil_r|].
  rewrite dot_cons, IH by (intros z Hz; apply Hr; now right). rewrite (Hr x) by now left. ring.
Qed.
Lemma weightless_cost L d j v x : weightless j -> cost_of L d j v x -> x = 0.
Proof.
  intros Hw H. unfold weightless in Hw. inversion H as [W lm k J e E EJ Ee|act W k J e E EJ Ee|g k J E EJ Hf|act W k E]; subst; rewrite E in Hw; try contradiction; rewrite !zero_mv, sq_vzero by exact Hw; ring.
Qed.
Lemma weightless_has_cost L nv d j v : weightless j -> fits L nv d j -> cost_of L d j v 0.
Proof.
  intros Hw (J & e & EJ & Ee & _). unfold weightless in Hw. destruct (j_ext j) as [W lm k|g k|a [] W k] eqn:E; try contradiction.
  - replace 0 with (1 / 2 * sq (mv W (vadd (mv J v) (gained j e))) + 1 / 2 * (lm * sq (mv W (gained j e))) * sq v); [now apply (cost_task L d j v W lm k J e)|]. rewrite !zero_mv, sq_vzero by exact Hw. ring.
  - replace 0 with (1 / 2 * sq (mv W (vadd (mv J v) (gained j e)))); [now apply (cost_soft L d j v a W k J e)|]. rewrite !zero_mv, sq_vzero by exact Hw. ring.
Qed.
Lemma weightless_kind j : weightless j -> is_barrier j = false /\ is_hard j = false.
Proof. unfold weightless, is_barrier, is_hard. destruct (j_ext j) as [| |a [] W k]; tauto. Qed.
Lemma total_split L d l1 l2 v x : total_cost L d (l1 ++ l2) v x <-> exists x1 x2, total_cost L d l1 v x1 /\ total_cost L d l2 v x2 /\ x = x1 + x2.
Proof.
  split.
  - intros (xs & F & ->). apply Forall2_app_inv_l in F. destruct F as (a & b & F1 & F2 & ->). exists (vsum a), (vsum b). split; [exists a; auto|]. split; [exists b; auto|]. clear. induction a as [|y a IH]; cbn; [ring|]. rewrite IH. ring.
  - intros (x1 & x2 & (a & F1 & ->) & (b & F2 & ->) & ->). exists (a ++ b). split; [now apply Forall2_app|]. clear. induction a as [|y a IH]; cbn; [ring|]. rewrite <- IH. ring.
Qed.
Lemma total_cons L d j l v x : total_cost L d (j :: l) v x <-> exists x1 x2, cost_of L d j v x1 /\ total_cost L d l v x2 /\ x = x1 + x2.
Proof.
  split.
  - intros (xs & F & ->). inversion F as [|? y ? ys F1 F2]; subst. exists y, (vsum ys). split; [exact F1|]. split; [exists ys; auto|]. reflexivity.
  - intros (x1 & x2 & C & (b & F2 & ->) & ->). exists (x1 :: b). split; [now constructor|reflexivity].
Qed.
Lemma weightless_total L nv d l1 j l2 v x : weightless j -> fits L nv d j -> total_cost L d (l1 ++ j :: l2) v x <-> total_cost L d (l1 ++ l2) v x.
Proof.
  intros Hw Hf. rewrite !total_split. split.
  - intros (x1 & x2 & A & B & ->). apply total_cons in B. destruct B as (y1 & y2 & C & B & ->). rewrite (weightless_cost L d j v y1 Hw C), Rplus_0_l. eauto.
  - intros (x1 & x2 & A & B & ->). exists x1, x2. split; [exact A|]. split; [|reflexivity]. apply total_cons. exists 0, x2. split; [now apply (weightless_has_cost L nv)|]. split; [exact B|ring].
Qed.
Lemma weightless_best L nv d pd l1 n j l2 v : jd_comps pd = l1 ++ (n, j) :: l2 -> weightless j -> fits L nv d j ->
  best L d pd v <-> best L d (with_components pd (l1 ++ l2)) v.
Proof.
  intros E Hw Hf. destruct (weightless_kind j Hw) as [K1 K2].
  assert (E1 : comps_of pd = map snd l1 ++ j :: map snd l2) by (unfold comps_of; rewrite E, map_app; reflexivity).
  assert (E2 : comps_of (with_components pd (l1 ++ l2)) = map snd l1 ++ map snd l2) by (unfold comps_of, with_components; cbn; apply map_app).
  assert (A : forall w, admissible L d pd w <-> admissible L d (with_components pd (l1 ++ l2)) w).
  { intros w. unfold admissible. rewrite E1, E2. cbn [jd_model jd_vmin jd_vmax with_components]. rewrite !Forall_app, Forall_cons_iff. rewrite K1, K2. intuition discriminate. }
  assert (T : forall w x, total_cost L d (comps_of pd) w x <-> total_cost L d (comps_of (with_components pd (l1 ++ l2))) w x).
  { intros w x. rewrite E1, E2. now apply (weightless_total L nv). }
  split; intros (B & x & X & H); (split; [now apply A|]); exists x; (split; [now apply T|]); intros w Hw'; apply A in Hw'; destruct (H w Hw') as (y & Y & Le); exists y; (split; [now apply T|exact Le]).
Qed.
