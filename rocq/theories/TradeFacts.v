(** Damping, speed and cost of one component: facts about single components. *)
From Verif Require Import Base Lin LinFacts Mjx Typing Component Problem JaxComponents LocalIK SpecQP QPFacts QPThms QPThms2 QPThms3 SpecSolve SolveFacts ScaleFacts SpecTrade.
Open Scope R_scope.

(** Damping. *)
Lemma redamped_call L x j : call L (redamped x j) = call L j.
Proof. destruct j as [a b c e f k]. destruct k as [W lm []|g []|ac h W []]; reflexivity. Qed.
Lemma redamped_jacobian L x j d : jacobian L (redamped x j) d = jacobian L j d.
Proof. destruct j as [a b c e f k]. destruct k as [W lm []|g []|ac h W []]; reflexivity. Qed.
Lemma redamped_kind x j : is_barrier (redamped x j) = is_barrier j /\ is_hard (redamped x j) = is_hard j.
Proof. destruct j as [a b c e f k]. destruct k as [| |? [] ? ?]; auto. Qed.
Lemma redamped_gained x j e : gained (redamped x j) e = gained j e. Proof. reflexivity. Qed.
(** The coefficient of half the squared velocity. *)
Definition drag (L : lib) (d : mjdata) (j : jaxc) : R :=
  match j_ext j with
  | JTask W _ _ => match call L j d with Ok e => sq (mv W (gained j e)) | _ => 0 end
  | JBarrier _ _ => match jacobian L j d with Ok J => / frob2 J | _ => 0 end
  | JConstraint _ _ _ _ => 0
  end.
Lemma drag_nonneg L d j : 0 <= drag L d j.
Proof.
  unfold drag. destruct (j_ext j); [destruct (call L j d); [apply sq_nonneg|lra]| |lra]. destruct (jacobian L j d) as [J|]; [|lra]. pose proof (frob2_nonneg J). destruct (Req_dec (frob2 J) 0) as [->|]; [rewrite Rinv_0; lra|]. apply Rlt_le, Rinv_0_lt_compat. lra.
Qed.
Lemma redamped_cost L d x j v y : cost_of L d j v y -> cost_of L d (redamped x j) v (y + 1 / 2 * ((x - damping j) * drag L d j) * sq v).
Proof.
  intros H. inversion H as [W lm k J e E EJ Ee|act W k J e E EJ Ee|g k J E EJ Hf|act W k E]; subst; clear H; unfold damping, drag; rewrite E.
  - rewrite Ee. match goal with |- cost_of _ _ _ _ ?z => replace z with (1 / 2 * sq (mv W (vadd (mv J v) (gained (redamped x j) e))) + 1 / 2 * (x * sq (mv W (gained (redamped x j) e))) * sq v) by (rewrite redamped_gained; field) end.
    apply (cost_task L d (redamped x j) v W x k J e); [unfold redamped; cbn; now rewrite E|now rewrite redamped_jacobian|now rewrite redamped_call].
  - match goal with |- cost_of _ _ _ _ ?z => replace z with (1 / 2 * sq (mv W (vadd (mv J v) (gained (redamped x j) e)))) by (rewrite redamped_gained; field) end.
    apply (cost_soft L d (redamped x j) v act W k J e); [unfold redamped; cbn; now rewrite E|now rewrite redamped_jacobian|now rewrite redamped_call].
  - rewrite EJ. match goal with |- cost_of _ _ _ _ ?z => replace z with (1 / 2 * (x / frob2 J) * sq v) by (field; exact Hf) end.
    apply (cost_barrier L d (redamped x j) v x k J); [unfold redamped; cbn; now rewrite E|now rewrite redamped_jacobian|exact Hf].
  - match goal with |- cost_of _ _ _ _ ?z => replace z with 0 by ring end. apply (cost_hard L d (redamped x j) v act W k). unfold redamped. cbn. now rewrite E.
Qed.
Lemma redamped_self j : redamped (damping j) j = j.
Proof. destruct j as [a b c e f k]. destruct k; reflexivity. Qed.
Lemma redamped_twice x y j : redamped x (redamped y j) = redamped x j.
Proof. destruct j as [a b c e f k]. destruct k; reflexivity. Qed.
Lemma same_but_damping j j' : redamped 0 j' = redamped 0 j -> j' = redamped (damping j') j.
Proof. intros H. rewrite <- (redamped_self j') at 1. rewrite <- (redamped_twice _ 0 j'), H. apply redamped_twice. Qed.
Lemma same_drag L d x j : drag L d (redamped x j) = drag L d j.
Proof.
  unfold drag. rewrite redamped_call, redamped_jacobian. unfold redamped at 1. cbn [j_ext]. destruct (j_ext j); reflexivity.
Qed.
Lemma damping_redamped x j : (exists a h W k, j_ext j = JConstraint a h W k) \/ damping (redamped x j) = x.
Proof. destruct j as [a b c e f k]. destruct k; [right; reflexivity|right; reflexivity|left; cbn; eauto]. Qed.
Lemma drag_reacts L d j v y : reacts L d j -> cost_of L d j v y -> 0 < drag L d j.
Proof.
  intros Hr H. unfold reacts, drag in *. inversion H as [W lm k J e E EJ Ee|act W k J e E EJ Ee|g k J E EJ Hf|act W k E]; rewrite E in *; try contradiction.
  - destruct Hr as (e' & x & Ee' & Hi & Hx). rewrite Ee. rewrite Ee in Ee'. injection Ee' as <-. eapply sq_pos_in; eauto.
  - rewrite EJ. pose proof (frob2_nonneg J). apply Rinv_0_lt_compat. lra.
Qed.
(** Total damping of a list of components. *)
Definition drags (L : lib) (d : mjdata) (js : list jaxc) : R := vsum (map (fun j => damping j * drag L d j) js).
Lemma undamped_total L d js v y : total_cost L d js v y -> total_cost L d (map (redamped 0) js) v (y - 1 / 2 * drags L d js * sq v).
Proof.
  intros (ys & F & ->). unfold drags. induction F as [|j y js ys H F IH].
  - exists []. split; [constructor|]. cbn. ring.
  - destruct IH as (zs & G & E). exists (y + 1 / 2 * ((0 - damping j) * drag L d j) * sq v :: zs). split; [constructor; [now apply redamped_cost|exact G]|]. cbn. rewrite <- E. ring.
Qed.
Lemma damped_total L d js js' v y : Forall2 (fun j j' => redamped 0 j' = redamped 0 j /\ damping j <= damping j') js js' -> total_cost L d js v y ->
  total_cost L d js' v (y + 1 / 2 * (drags L d js' - drags L d js) * sq v).
Proof.
  intros Hs (ys & F & ->). unfold drags. revert ys F. induction Hs as [|j j' js js' [S _] Hs IH]; intros ys F; inversion F as [|? y ? ys' H F']; subst.
  - exists []. split; [constructor|]. cbn. ring.
  - destruct (IH ys' F') as (zs & G & E). pose proof (same_but_damping _ _ S) as Q. exists (y + 1 / 2 * ((damping j' - damping j) * drag L d j) * sq v :: zs). split; [constructor; [rewrite Q at 1; now apply redamped_cost|exact G]|].
    cbn. rewrite <- E. rewrite Q at 2. rewrite same_drag. ring.
Qed.
Lemma damped_obeys L d v j j' : redamped 0 j' = redamped 0 j -> (is_barrier j' = true -> cbf L d v j') /\ (is_hard j' = true -> holds_exactly L d v j') <-> (is_barrier j = true -> cbf L d v j) /\ (is_hard j = true -> holds_exactly L d v j).
Proof.
  intros S. rewrite (same_but_damping _ _ S). destruct (redamped_kind (damping j') j) as [-> ->]. unfold cbf, holds_exactly. rewrite redamped_call, redamped_jacobian. reflexivity.
Qed.
Lemma damped_admissible L d pd pd' v : damped_up pd pd' -> admissible L d pd' v <-> admissible L d pd v.
Proof.
  intros (A & B & C & F). unfold admissible. rewrite A, B, C. set (js := comps_of pd) in *. set (js' := comps_of pd') in *.
  assert (K : Forall (fun j => (is_barrier j = true -> cbf L d v j) /\ (is_hard j = true -> holds_exactly L d v j)) js' <-> Forall (fun j => (is_barrier j = true -> cbf L d v j) /\ (is_hard j = true -> holds_exactly L d v j)) js).
  { clearbody js js'. clear -F. induction F as [|j j' js js' [S _] F IH]; [split; constructor|]. rewrite !Forall_cons_iff, IH. now rewrite (damped_obeys L d v j j' S). }
  now rewrite K.
Qed.
Lemma drags_up L d js js' : Forall2 (fun j j' => redamped 0 j' = redamped 0 j /\ damping j <= damping j') js js' -> drags L d js <= drags L d js'.
Proof.
  unfold drags. induction 1 as [|j j' js js' [S Le] F IH]; cbn; [lra|]. rewrite (same_but_damping _ _ S) at 2. rewrite same_drag. pose proof (drag_nonneg L d j). nra.
Qed.
Lemma drags_strict L d js js' v y : Forall2 (fun j j' => redamped 0 j' = redamped 0 j /\ damping j <= damping j') js js' -> total_cost L d js v y ->
  (exists k j j', nth_error js k = Some j /\ nth_error js' k = Some j' /\ damping j < damping j' /\ reacts L d j) -> drags L d js < drags L d js'.
Proof.
  intros F (ys & G & _) (k & j & j' & E1 & E2 & Lt & Hr). revert k ys G E1 E2. unfold drags. induction F as [|i i' js js' [S Le] F IH]; intros k ys G E1 E2; [destruct k; discriminate|]. inversion G as [|? z ? zs H G']; subst. cbn.
  rewrite (same_but_damping _ _ S) at 2. rewrite same_drag. destruct k as [|k]; cbn in E1, E2.
  - injection E1 as ->. injection E2 as ->. pose proof (drags_up L d _ _ F) as K. unfold drags in K. pose proof (drag_reacts _ _ _ _ _ Hr H). nra.
  - specialize (IH k zs G' E1 E2). pose proof (drag_nonneg L d i). nra.
Qed.
(** More damping: a shorter step, and goals met less well. *)
Lemma drags_nonneg L d js : Forall nonneg_weights js -> 0 <= drags L d js.
Proof.
  unfold drags. induction 1 as [|j js H F IH]; cbn; [lra|]. pose proof (drag_nonneg L d j). assert (0 <= damping j) by (unfold nonneg_weights, damping in *; destruct (j_ext j); lra). nra.
Qed.
Lemma damping_shortens L d pd pd' v v' : damped_up pd pd' ->
  (exists k j j', nth_error (comps_of pd) k = Some j /\ nth_error (comps_of pd') k = Some j' /\ damping j < damping j' /\ reacts L d j) ->
  best L d pd v -> best L d pd' v' ->
  sq v' <= sq v /\ (Forall nonneg_weights (comps_of pd) -> exists x y, total_cost L d (map (redamped 0) (comps_of pd)) v x /\ total_cost L d (map (redamped 0) (comps_of pd)) v' y /\ x <= y).
Proof.
  intros Hd He (Av & x & X & Hx) (Aw & x' & X' & Hx'). pose proof Hd as (_ & _ & _ & F). apply (damped_admissible L d pd pd') in Aw; [|exact Hd].
  destruct (Hx v' Aw) as (y & Y & L1). destruct (Hx' v) as (y' & Y' & L2); [now apply (damped_admissible L d pd pd')|].
  pose proof (total_cost_fun _ _ _ _ _ _ Y' (damped_total _ _ _ _ _ _ F X)) as E1. pose proof (total_cost_fun _ _ _ _ _ _ X' (damped_total _ _ _ _ _ _ F Y)) as E2.
  pose proof (drags_strict _ _ _ _ _ _ F X He) as S. assert (Q : sq v' <= sq v) by nra. split; [exact Q|]. intros Hn. pose proof (drags_nonneg L d _ Hn) as P.
  eexists. eexists. split; [exact (undamped_total _ _ _ _ _ X)|]. split; [exact (undamped_total _ _ _ _ _ Y)|]. nra.
Qed.

(** Speed. *)
Lemma sped_call L s j : call L (sped s j) = call L j.
Proof. destruct j as [a b c e f k]. destruct k as [W lm []|g []|ac h W []]; reflexivity. Qed.
Lemma sped_jacobian L s j d : jacobian L (sped s j) d = jacobian L j d.
Proof. destruct j as [a b c e f k]. destruct k as [W lm []|g []|ac h W []]; reflexivity. Qed.
Lemma sped_kind s j : is_barrier (sped s j) = is_barrier j /\ is_hard (sped s j) = is_hard j.
Proof. destruct j as [a b c e f k]. destruct k as [| |? [] ? ?]; auto. Qed.
Lemma vmul_vscale_l s a b : vmul (vscale s a) b = vscale s (vmul a b).
Proof. unfold vmul, vscale, vmap2. revert b. induction a as [|x a IH]; intros [|y b]; cbn; [reflexivity..|]. rewrite IH. f_equal. ring. Qed.
Lemma sped_gained s j e : gained (sped s j) e = vscale s (gained j e).
Proof. unfold gained. cbn [sped j_gain j_gain_fn]. apply vmul_vscale_l. Qed.
Lemma mv_vscale A k v : mv A (vscale k v) = vscale k (mv A v).
Proof. unfold mv, vscale at 2. rewrite map_map. apply map_ext. intros r. apply dot_vscale_r. Qed.
Lemma vadd_vscale s a b : vadd (vscale s a) (vscale s b) = vscale s (vadd a b).
Proof. unfold vadd, vscale, vmap2. revert b. induction a as [|x a IH]; intros [|y b]; cbn; [reflexivity..|]. rewrite IH. f_equal. ring. Qed.
Lemma sped_cost L d s j v y : s <> 0 -> cost_of L d j v y -> cost_of L d (sped s j) (vscale s v) (s * s * y).
Proof.
  intros Hs H. inversion H as [W lm k J e E EJ Ee|act W k J e E EJ Ee|g k J E EJ Hf|act W k E]; subst; clear H.
  - match goal with |- cost_of _ _ _ _ ?z => replace z with (1 / 2 * sq (mv W (vadd (mv J (vscale s v)) (gained (sped s j) e))) + 1 / 2 * (lm / (s * s) * sq (mv W (gained (sped s j) e))) * sq (vscale s v)) end.
    2:{ rewrite sped_gained, mv_vscale, vadd_vscale, !mv_vscale, !sq_vscale. field. exact Hs. }
    apply (cost_task L d (sped s j) (vscale s v) W (lm / (s * s)) k J e); [unfold sped; cbn; now rewrite E|now rewrite sped_jacobian|now rewrite sped_call].
  - match goal with |- cost_of _ _ _ _ ?z => replace z with (1 / 2 * sq (mv W (vadd (mv J (vscale s v)) (gained (sped s j) e)))) end.
    2:{ rewrite sped_gained, mv_vscale, vadd_vscale, !mv_vscale, !sq_vscale. ring. }
    apply (cost_soft L d (sped s j) (vscale s v) act W k J e); [unfold sped; cbn; now rewrite E|now rewrite sped_jacobian|now rewrite sped_call].
  - match goal with |- cost_of _ _ _ _ ?z => replace z with (1 / 2 * (g / frob2 J) * sq (vscale s v)) by (rewrite sq_vscale; ring) end.
    apply (cost_barrier L d (sped s j) (vscale s v) g k J); [unfold sped; cbn; now rewrite E|now rewrite sped_jacobian|exact Hf].
  - rewrite Rmult_0_r. apply (cost_hard L d (sped s j) (vscale s v) act W k). unfold sped. cbn. now rewrite E.
Qed.
Lemma sped_comps s pd : comps_of (sped_problem s pd) = map (sped s) (comps_of pd).
Proof. unfold comps_of, sped_problem. cbn. now rewrite !map_map. Qed.
Lemma sped_total L d s js v y : s <> 0 -> total_cost L d js v y -> total_cost L d (map (sped s) js) (vscale s v) (s * s * y).
Proof.
  intros Hs (ys & F & ->). exists (map (fun y => s * s * y) ys). split.
  - induction F; cbn; constructor; [now apply sped_cost|assumption].
  - clear F. induction ys as [|y ys IH]; cbn; [ring|]. rewrite <- IH. ring.
Qed.
Lemma vle_vscale s a b : 0 < s -> vle (vscale s a) (vscale s b) <-> vle a b.
Proof.
  intros Hs. unfold vle, vscale. split; revert b; induction a as [|x a IH]; intros [|y b] H; inversion H; subst; cbn; constructor; auto; nra.
Qed.
Lemma vscale_vneg s a : vneg (vscale s a) = vscale s (vneg a).
Proof. unfold vneg, vscale. rewrite !map_map. apply map_ext. intros x. ring. Qed.
Lemma vscale_inj s a b : s <> 0 -> vscale s a = vscale s b <-> a = b.
Proof.
  intros Hs. split; [|congruence]. unfold vscale. revert b. induction a as [|x a IH]; intros [|y b] H; inversion H; [reflexivity|]. f_equal; [|now apply IH]. now apply Rmult_eq_reg_l in H1.
Qed.
Lemma sped_obeys L d s v j : 0 < s -> (is_barrier (sped s j) = true -> cbf L d (vscale s v) (sped s j)) /\ (is_hard (sped s j) = true -> holds_exactly L d (vscale s v) (sped s j)) <-> (is_barrier j = true -> cbf L d v j) /\ (is_hard j = true -> holds_exactly L d v j).
Proof.
  intros Hs. destruct (sped_kind s j) as [-> ->]. unfold cbf, holds_exactly. rewrite sped_call, sped_jacobian.
  split; intros [A B]; (split; intros K J e EJ Ee; [specialize (A K J e EJ Ee); clear B|specialize (B K J e EJ Ee); clear A]); rewrite sped_gained, mv_vscale, vscale_vneg in *; try (now apply vle_vscale in A); try (now apply vle_vscale).
  - apply vscale_inj in B; [exact B|lra].
  - now rewrite B.
Qed.
Lemma sped_admissible L d s pd v : 0 < s -> admissible L d (sped_problem s pd) (vscale s v) <-> admissible L d pd v.
Proof.
  intros Hs. unfold admissible. rewrite sped_comps. cbn [sped_problem jd_model jd_vmin jd_vmax]. rewrite Forall_map, !vscale_vneg, !vle_vscale by exact Hs.
  assert (K : Forall (fun j => (is_barrier (sped s j) = true -> cbf L d (vscale s v) (sped s j)) /\ (is_hard (sped s j) = true -> holds_exactly L d (vscale s v) (sped s j))) (comps_of pd) <-> Forall (fun j => (is_barrier j = true -> cbf L d v j) /\ (is_hard j = true -> holds_exactly L d v j)) (comps_of pd)).
  { rewrite !Forall_forall. split; intros H j Hj; specialize (H j Hj); now apply (sped_obeys L d s v j Hs). }
  rewrite K. assert (Lv : List.length (vscale s v) = List.length v) by (unfold vscale; apply map_length). now rewrite Lv.
Qed.
Lemma vscale_back s v : s <> 0 -> vscale s (vscale (/ s) v) = v.
Proof. intros Hs. unfold vscale. rewrite map_map. rewrite <- (map_id v) at 2. apply map_ext. intros x. field. exact Hs. Qed.
Lemma sped_best_1 L d s pd v : 0 < s -> best L d pd v -> best L d (sped_problem s pd) (vscale s v).
Proof.
  intros Hs (A & x & X & H). assert (Hz : s <> 0) by lra. split; [now apply sped_admissible|]. rewrite sped_comps. exists (s * s * x). split; [now apply sped_total|].
  intros w Hw. rewrite <- (vscale_back s w Hz) in Hw |- *. apply sped_admissible in Hw; [|exact Hs]. destruct (H _ Hw) as (y & Y & Le). exists (s * s * y). split; [now apply sped_total|]. apply Rmult_le_compat_l; [nra|exact Le].
Qed.
Lemma sped_back s pd : s <> 0 -> sped_problem (/ s) (sped_problem s pd) = pd.
Proof.
  intros Hs. destruct pd as [m lo hi cs]. unfold sped_problem. cbn [jd_model jd_vmin jd_vmax jd_comps].
  assert (V : forall v, vscale (/ s) (vscale s v) = v). { intros v. pose proof (vscale_back (/ s) v (Rinv_neq_0_compat _ Hs)) as K. rewrite Rinv_inv in K. exact K. }
  rewrite !V. f_equal. rewrite map_map. rewrite <- (map_id cs) at 2. apply map_ext. intros [n j]. cbn [fst snd]. f_equal.
  destruct j as [a b c e f k]. unfold sped. cbn [j_dim j_model j_gain j_gain_fn j_mask_idxs j_ext]. rewrite V. f_equal. destruct k; try reflexivity. f_equal. field. exact Hs.
Qed.
Lemma sped_best L d s pd v : 0 < s -> best L d (sped_problem s pd) (vscale s v) <-> best L d pd v.
Proof.
  intros Hs. split; [|now apply sped_best_1]. intros H. apply (sped_best_1 L d (/ s)) in H; [|now apply Rinv_0_lt_compat]. rewrite sped_back in H by lra.
  replace (vscale (/ s) (vscale s v)) with v in H; [exact H|]. pose proof (vscale_back (/ s) v (Rinv_neq_0_compat s ltac:(lra))) as K. now rewrite Rinv_inv in K.
Qed.
