(** When all goals can be met, the best velocity meets them. *)
From Verif Require Import Base Lin LinFacts Mjx Typing Component Problem SpecComponent JaxComponents LocalIK SpecQP QPFacts QPThms QPThms2 QPThms3 SpecSolve SolveFacts SpecDescent DescentFacts DescentThms2 SpecGoals.
Open Scope R_scope.
Local Opaque dot.

Lemma vadd_neg_zero a b : List.length a = List.length b -> (forall y, In y (vadd a b) -> y = 0) -> a = vneg b.
Proof.
  unfold vadd, vneg, vmap2. revert b. induction a as [|x a IH]; intros [|y b] E H; cbn in *; try discriminate; [reflexivity|].
  rewrite (IH b) by (auto; lia). f_equal. specialize (H (x + y) (or_introl eq_refl)). lra.
Qed.
Lemma vadd_vneg_l b : vadd (vneg b) b = vzero (List.length b).
Proof. unfold vadd, vneg, vzero, vmap2. induction b as [|y b IH]; cbn; [reflexivity|]. rewrite IH. f_equal. ring. Qed.
Lemma sq_all_zero v : (forall y, In y v -> y = 0) -> sq v = 0.
Proof. intros H. replace v with (vzero (List.length v)); [apply sq_vzero|]. symmetry. unfold vzero. induction v as [|x v IH]; cbn; [reflexivity|]. rewrite (H x (or_introl eq_refl)). f_equal. apply IH. intros y Hy. apply H. now right. Qed.
Lemma vsum_cons' x xs : vsum (x :: xs) = x + vsum xs. Proof. reflexivity. Qed.
Lemma sum_nonneg xs : Forall (fun x => 0 <= x) xs -> 0 <= vsum xs.
Proof. induction 1; [cbn; lra|]. rewrite vsum_cons'. lra. Qed.
Lemma sum_zero xs : Forall (fun x => 0 <= x) xs -> vsum xs <= 0 -> Forall (fun x => x = 0) xs.
Proof.
  induction 1 as [|x xs Hx H IH]; intros E; [constructor|]. rewrite vsum_cons' in E. pose proof (sum_nonneg xs H). constructor; [lra|]. apply IH. lra.
Qed.

Section Here.
Context (L : lib) (d : mjdata) (pd : jdata).
Notation nv := (m_nv (jd_model pd)).

Lemma met_costs_nothing j v x : well_shaped L nv d j -> quiet L d j -> (seeks j = true -> holds_exactly L d v j) -> cost_of L d j v x -> x = 0.
Proof.
  intros Hw Hq Hm Hc. unfold quiet in Hq. inversion Hc as [W lm k J e E EJ Ee|act W k J e E EJ Ee|g k J E EJ Hf|act W k E]; subst; try rewrite E in Hq.
  - destruct (Hw J e EJ Ee) as [MJ Lg]. rewrite (Hm ltac:(unfold seeks; now rewrite E) J e EJ Ee), vadd_vneg_l, mv_vzero_r, sq_vzero.
    destruct Hq as [->|Hq]; [ring|]. rewrite (sq_all_zero _ (Hq e Ee)). ring.
  - destruct (Hw J e EJ Ee) as [MJ Lg]. rewrite (Hm ltac:(unfold seeks; now rewrite E) J e EJ Ee), vadd_vneg_l, mv_vzero_r, sq_vzero. ring.
  - subst g. unfold Rdiv. ring.
  - reflexivity.
Qed.
Lemma costs_nonneg j v x : nonneg_weights j -> cost_of L d j v x -> 0 <= x.
Proof.
  intros Hn Hc. unfold nonneg_weights in Hn. inversion Hc as [W lm k J e E EJ Ee|act W k J e E EJ Ee|g k J E EJ Hf|act W k E]; subst; try rewrite E in Hn.
  - pose proof (sq_nonneg (mv W (vadd (mv J v) (gained j e)))). pose proof (sq_nonneg (mv W (gained j e))) as H1. pose proof (sq_nonneg v). pose proof (Rmult_le_pos _ _ (Rmult_le_pos _ _ Hn H1) H0). lra.
  - pose proof (sq_nonneg (mv W (vadd (mv J v) (gained j e)))). lra.
  - assert (0 <= g / frob2 J) as K by (unfold Rdiv; apply Rmult_le_pos; [exact Hn|left; apply Rinv_0_lt_compat; pose proof (frob2_nonneg J); lra]). pose proof (Rmult_le_pos _ _ K (sq_nonneg v)). lra.
  - lra.
Qed.
Lemma free_means_met j v : well_shaped L nv d j -> nonneg_weights j -> cares j -> cost_of L d j v 0 -> seeks j = true -> holds_exactly L d v j.
Proof.
  intros Hw Hn Ha Hc Hs J e EJ Ee. destruct (Hw J e EJ Ee) as [MJ Lg]. unfold nonneg_weights in Hn.
  assert (Z : sq (mv (weight_of j) (vadd (mv J v) (gained j e))) = 0).
  { inversion Hc as [W lm k J' e' E EJ' Ee' X|act W k J' e' E EJ' Ee' X|g k J' E EJ' Hf X|act W k E X]; try (unfold seeks in Hs; rewrite E in Hs; discriminate).
    - rewrite EJ in EJ'. injection EJ' as <-. rewrite Ee in Ee'. injection Ee' as <-. unfold weight_of. rewrite E in *.
      pose proof (sq_nonneg (mv W (vadd (mv J v) (gained j e)))). pose proof (sq_nonneg (mv W (gained j e))) as H1. pose proof (sq_nonneg v). pose proof (Rmult_le_pos _ _ (Rmult_le_pos _ _ Hn H1) H0). lra.
    - rewrite EJ in EJ'. injection EJ' as <-. rewrite Ee in Ee'. injection Ee' as <-. unfold weight_of. rewrite E. lra. }
  assert (Lz : List.length (mv J v) = List.length (gained j e)) by (rewrite mv_length, gained_length by exact Lg; apply MJ).
  apply vadd_neg_zero; [exact Lz|]. apply (Ha Hs); [|exact (sq_zero_in _ Z)]. unfold vadd. rewrite vmap2_length by exact Lz. rewrite ?Lz, gained_length by exact Lg. lia.
Qed.

Lemma total_zero js v x : Forall (well_shaped L nv d) js -> Forall (quiet L d) js -> Forall (fun j => seeks j = true -> holds_exactly L d v j) js -> total_cost L d js v x -> x = 0.
Proof.
  intros Hw Hq Hm (xs & F & ->). induction F as [|j y js xs Hj F IH]; [reflexivity|]. inversion Hw; inversion Hq; inversion Hm; subst. rewrite vsum_cons', (met_costs_nothing j v y), IH by assumption. ring.
Qed.
Lemma total_zero_met js v x : Forall (well_shaped L nv d) js -> Forall nonneg_weights js -> Forall cares js -> total_cost L d js v x -> x <= 0 -> Forall (fun j => seeks j = true -> holds_exactly L d v j) js.
Proof.
  intros Hw Hn Hc (xs & F & ->) Hx.
  assert (N : Forall (fun x => 0 <= x) xs). { clear - F Hn. induction F; constructor; inversion Hn; subst; eauto using costs_nonneg. }
  pose proof (sum_zero xs N Hx) as Z. clear N Hx. induction F as [|j y js xs Hj F IH]; [constructor|]. inversion Hw; inversion Hn; inversion Hc; inversion Z; subst. constructor; [|auto]. now apply free_means_met.
Qed.

(** If some admissible velocity meets every goal, so does every best one. *)
Lemma compatible_met v w : best L d pd v -> Forall (well_shaped L nv d) (comps_of pd) -> Forall nonneg_weights (comps_of pd) -> Forall cares (comps_of pd) -> Forall (quiet L d) (comps_of pd) ->
  admissible L d pd w -> meets_goals L d w pd -> meets_goals L d v pd.
Proof.
  intros (Av & x & Hx & Bx) Hw Hn Hc Hq Aw Mw. destruct (Bx w Aw) as (y & Hy & Le). rewrite (total_zero _ _ _ Hw Hq Mw Hy) in Le. exact (total_zero_met _ _ _ Hw Hn Hc Hx Le).
Qed.
(** Then the best velocities are exactly the admissible ones that meet every goal. *)
Lemma best_iff_met v w : best L d pd v -> Forall (well_shaped L nv d) (comps_of pd) -> Forall nonneg_weights (comps_of pd) -> Forall cares (comps_of pd) -> Forall (quiet L d) (comps_of pd) ->
  admissible L d pd w -> meets_goals L d w pd -> forall u, best L d pd u <-> admissible L d pd u /\ meets_goals L d u pd.
Proof.
  intros Hb Hw Hn Hc Hq Aw Mw u. split.
  - intros Hu. split; [exact (proj1 Hu)|]. exact (compatible_met u w Hu Hw Hn Hc Hq Aw Mw).
  - intros [Au Mu]. destruct Hb as (Av & x & Hx & Bx). split; [exact Au|]. destruct (Bx u Au) as (y & Hy & Le). exists y. split; [exact Hy|]. intros z Az. destruct (Bx z Az) as (t & Ht & Lt). exists t. split; [exact Ht|].
    rewrite (total_zero _ _ _ Hw Hq Mu Hy) in *. clear - Hn Ht. destruct Ht as (ts & F & ->). induction F as [|j y js xs Hj F IH]; [cbn; lra|]. inversion Hn; subst. pose proof (costs_nonneg j z y ltac:(assumption) Hj). specialize (IH ltac:(assumption)). rewrite vsum_cons'. lra.
Qed.

(** A velocity that meets the goals and moves is best only if nothing is damped. *)
Lemma met_ray j v x : well_shaped L nv d j -> nonneg_weights j -> cost_of L d j v x -> (seeks j = true -> holds_exactly L d v j) ->
  exists A M, 0 <= A /\ 0 <= M /\ (forall s, cost_of L d j (vscale s v) (1 / 2 * ((1 - s) * (1 - s)) * A + s * s / 2 * M)) /\ (M = 0 -> 0 < sq v -> quiet L d j).
Proof.
  intros Hw Hn Hc Hm. unfold nonneg_weights in Hn. unfold quiet.
  assert (R : forall J e s, jacobian L j d = Ok J -> call L j d = Ok e -> seeks j = true -> vadd (mv J (vscale s v)) (gained j e) = vscale (1 - s) (gained j e)).
  { intros J e s EJ Ee S. rewrite mv_scaled, (Hm S J e EJ Ee). unfold vadd, vneg, vscale, vmap2. induction (gained j e) as [|y l IH]; cbn; [reflexivity|]. rewrite IH. f_equal. ring. }
  inversion Hc as [W lm k J e E EJ Ee|act W k J e E EJ Ee|g k J E EJ Hf|act W k E]; subst; rewrite E in *.
  - exists (sq (mv W (gained j e))), (lm * sq (mv W (gained j e)) * sq v). pose proof (sq_nonneg (mv W (gained j e))) as P1. pose proof (sq_nonneg v) as P2. split; [exact P1|]. split; [repeat apply Rmult_le_pos; auto|]. split.
    + intros s. pose proof (cost_task L d j (vscale s v) W lm k J e E EJ Ee) as K. rewrite (R J e s EJ Ee ltac:(unfold seeks; now rewrite E)), mv_scaled in K.
      replace (sq (vscale s v)) with (s * s * sq v) in K by (unfold sq; rewrite dot_vscale_l, dot_vscale_r; ring). replace (sq (vscale (1 - s) (mv W (gained j e)))) with ((1 - s) * (1 - s) * sq (mv W (gained j e))) in K by (unfold sq; rewrite dot_vscale_l, dot_vscale_r; ring).
      match type of K with cost_of _ _ _ _ ?u => match goal with |- cost_of _ _ _ _ ?w => replace w with u by field end end. exact K.
    + intros Z Hv. destruct (Req_dec lm 0) as [|N]; [now left|right]. intros e' Ee' y Hy. rewrite Ee in Ee'. injection Ee' as <-. apply (sq_zero_in (mv W (gained j e))); [|exact Hy].
      apply Rmult_integral in Z as [Z|Z]; [|lra]. apply Rmult_integral in Z as [Z|Z]; [contradiction|exact Z].
  - exists (sq (mv W (gained j e))), 0. split; [apply sq_nonneg|]. split; [lra|]. split; [|trivial].
    intros s. pose proof (cost_soft L d j (vscale s v) act W k J e E EJ Ee) as K. rewrite (R J e s EJ Ee ltac:(unfold seeks; now rewrite E)), mv_scaled in K.
    replace (sq (vscale (1 - s) (mv W (gained j e)))) with ((1 - s) * (1 - s) * sq (mv W (gained j e))) in K by (unfold sq; rewrite dot_vscale_l, dot_vscale_r; ring).
    match type of K with cost_of _ _ _ _ ?u => match goal with |- cost_of _ _ _ _ ?w => replace w with u by field end end. exact K.
  - assert (F0 : 0 < / frob2 J) by (apply Rinv_0_lt_compat; pose proof (frob2_nonneg J); lra). exists 0, (g / frob2 J * sq v). split; [lra|]. split; [apply Rmult_le_pos; [unfold Rdiv; apply Rmult_le_pos; lra|apply sq_nonneg]|]. split.
    + intros s. pose proof (cost_barrier L d j (vscale s v) g k J E EJ Hf) as K. replace (sq (vscale s v)) with (s * s * sq v) in K by (unfold sq; rewrite dot_vscale_l, dot_vscale_r; ring).
      match type of K with cost_of _ _ _ _ ?u => match goal with |- cost_of _ _ _ _ ?w => replace w with u by (field; exact Hf) end end. exact K.
    + intros Z Hv. apply Rmult_integral in Z as [Z|Z]; [|lra]. unfold Rdiv in Z. apply Rmult_integral in Z as [Z|Z]; [exact Z|lra].
  - exists 0, 0. split; [lra|]. split; [lra|]. split; [|trivial]. intros s. match goal with |- cost_of _ _ _ _ ?w => replace w with 0 by field end. now apply (cost_hard L d j (vscale s v) act W k).
Qed.
Lemma met_quiet v : best L d pd v -> admissible L d pd (vzero nv) -> Forall (well_shaped L nv d) (comps_of pd) -> Forall nonneg_weights (comps_of pd) -> moving v -> meets_goals L d v pd -> Forall (quiet L d) (comps_of pd).
Proof.
  intros (Av & x & (xs & Fx & Ex) & Bx) A0 Hw Hn (y0 & Iy & Ny) Hm. pose proof (sq_pos_in v y0 Iy Ny) as Pv. unfold meets_goals in Hm.
  assert (G : exists As Ms, Forall (fun a => 0 <= a) As /\ Forall (fun a => 0 <= a) Ms /\ (forall s, total_cost L d (comps_of pd) (vscale s v) (1 / 2 * ((1 - s) * (1 - s)) * vsum As + s * s / 2 * vsum Ms)) /\ (Forall (fun a => a = 0) Ms -> Forall (quiet L d) (comps_of pd))).
  { clear - Fx Hw Hn Hm Pv. induction Fx as [|j y js xs Hj F IH]; [exists [], []; split; [constructor|]; split; [constructor|]; split; [intros s; exists []; split; [constructor|cbn; field]|constructor]|].
    inversion Hw; inversion Hn; inversion Hm; subst. destruct IH as (As & Ms & P1 & P2 & P3 & P4); auto. destruct (met_ray j v y) as (A & M & Q1 & Q2 & Q3 & Q4); auto.
    exists (A :: As), (M :: Ms). split; [now constructor|]. split; [now constructor|]. split.
    - intros s. destruct (P3 s) as (zs & Z1 & Z2). eexists. split; [constructor; [apply Q3|exact Z1]|]. rewrite !vsum_cons', <- Z2. field.
    - intros K. inversion K; subst. constructor; auto. }
  destruct G as (As & Ms & P1 & P2 & P3 & P4). apply P4. apply sum_zero; [exact P2|].
  assert (PA : 0 <= vsum As) by now apply sum_nonneg.
  assert (V : vscale 1 v = v). { unfold vscale. rewrite <- (map_id v) at 2. apply map_ext. intros. ring. }
  assert (X : x = vsum Ms / 2). { pose proof (P3 1) as T1. rewrite V in T1. assert (T0 : total_cost L d (comps_of pd) v x) by (exists xs; auto). rewrite (total_cost_fun L d _ _ _ _ T0 T1). field. }
  assert (K : forall s, 0 <= s <= 1 -> vsum Ms / 2 <= 1 / 2 * ((1 - s) * (1 - s)) * vsum As + s * s / 2 * vsum Ms).
  { intros s Hs. destruct (Bx (vscale s v) (admissible_scaled L d pd s v Hs Av A0)) as (y & Y & Ly). rewrite (total_cost_fun L d _ _ _ _ Y (P3 s)) in Ly. lra. }
  set (A := vsum As) in *. set (M := vsum Ms) in *. destruct (Rle_dec M 0) as [|N]; [assumption|exfalso]. assert (HM : 0 < M) by lra.
  set (h := M / (A + M)). assert (Hh : h * (A + M) = M) by (unfold h; field; lra). assert (0 < h <= 1). { split; [apply Rdiv_lt_0_compat; lra|]. apply (Rmult_le_reg_r (A + M)); lra. }
  specialize (K (1 - h) ltac:(lra)). nra.
Qed.
Lemma met_iff v : best L d pd v -> admissible L d pd (vzero nv) -> Forall (well_shaped L nv d) (comps_of pd) -> Forall nonneg_weights (comps_of pd) -> Forall cares (comps_of pd) -> moving v ->
  (meets_goals L d v pd <-> Forall (quiet L d) (comps_of pd) /\ exists w, admissible L d pd w /\ meets_goals L d w pd).
Proof.
  intros Hb H0 Hw Hn Hc Hv. split.
  - intros Hm. split; [now apply (met_quiet v)|]. exists v. split; [exact (proj1 Hb)|exact Hm].
  - intros (Hq & w & Aw & Mw). now apply (compatible_met v w).
Qed.
End Here.

(** Costs without zeros. *)
Lemma entry_dot d W x i : is_mat d d W -> List.length x = d -> (i < d)%nat -> (forall j, (j < d)%nat -> j <> i -> entry W i j = 0) -> dot (nth i W []) x = entry W i i * nth i x 0.
Proof.
  intros [LW FW] Lx Hi Hz. assert (Lr : List.length (nth i W []) = d) by (rewrite Forall_forall in FW; apply FW, nth_In; lia). unfold entry in *. revert Lr Lx Hi Hz. generalize (nth i W []) as r. clear. revert x d.
  induction i as [|i IH]; intros [|y x] d [|a r] Lr Lx Hi Hz; cbn in Lr, Lx; try lia.
  - rewrite dot_cons. cbn. assert (Z : dot r x = 0); [|lra]. assert (Y : forall j, nth j r 0 = 0). { intros j. destruct (Nat.lt_ge_cases j (List.length r)); [|now apply nth_overflow]. apply (Hz (S j)); lia. }
    clear - Y. revert x. induction r as [|b r IH]; intros [|z x]; try apply dot_nil_l; try apply dot_nil_r. rewrite dot_cons, IH by (intros j; exact (Y (S j))). pose proof (Y 0%nat). cbn in H. rewrite H. ring.
  - rewrite dot_cons. cbn. rewrite (IH x (List.length r) r) by (try lia; intros j Hj Hne; apply (Hz (S j)); lia). pose proof (Hz 0%nat ltac:(lia) ltac:(lia)). cbn in H. rewrite H. ring.
Qed.
Lemma diagonal_cares d W x : is_mat d d W -> List.length x = d -> (forall i j, (i < d)%nat -> (j < d)%nat -> j <> i -> entry W i j = 0) -> (forall i, (i < d)%nat -> entry W i i <> 0) ->
  (forall y, In y (mv W x) -> y = 0) -> forall y, In y x -> y = 0.
Proof.
  intros HW Lx Hz Hd H y Hy. destruct (In_nth x y 0 Hy) as (i & Hi & <-). rewrite Lx in Hi. assert (E : dot (nth i W []) x = 0). { apply H. unfold mv. apply in_map_iff. exists (nth i W []). split; [reflexivity|]. apply nth_In. rewrite (proj1 HW). lia. }
  rewrite (entry_dot d W x i HW Lx Hi) in E by (intros; apply Hz; auto). apply Rmult_integral in E as [E|E]; [|exact E]. elim (Hd i Hi E).
Qed.
Lemma weighs_all_cares j cost d : cost_means cost d (weight_of j) -> List.length (j_gain j) = d -> weighs_all cost d -> cares j.
Proof.
  intros [HW Hm] Lg Hc S x Lx H. rewrite Lg in Lx. apply (diagonal_cares d (weight_of j)); auto.
  - intros i k Hi Hk Hne. apply Nat.neq_sym, Nat.eqb_neq in Hne. destruct Hm as [(c & -> & E)|[(Es & E)|(Es & E)]]; [rewrite E, Hne by auto; reflexivity|rewrite E, Hne by auto; reflexivity|].
    destruct Hc as [(c & -> & _)|(Es' & _)]; [discriminate Es|]. congruence.
  - intros i Hi. destruct Hm as [(c & -> & E)|[(Es & E)|(Es & E)]].
    + rewrite E, Nat.eqb_refl by auto. destruct Hc as [(c' & Ec & N)|(Es' & _)]; [injection Ec as <-; exact N|discriminate Es'].
    + rewrite E, Nat.eqb_refl by auto. destruct Hc as [(c' & -> & N)|(Es' & N)]; [discriminate Es|now apply N].
    + destruct Hc as [(c' & -> & N)|(Es' & N)]; [discriminate Es|congruence].
Qed.

(** One step with linear gains: each error entry is multiplied by 1 - g dt. *)
Lemma met_step L nv d d' dt v j e : well_shaped L nv d j -> holds_exactly L d v j -> advances L dt v d d' j -> (forall x, j_gain_fn j x = x) -> call L j d = Ok e -> (exists J, jacobian L j d = Ok J) ->
  exists e', call L j d' = Ok e' /\ List.length e' = List.length e /\ forall i, (i < List.length e)%nat -> nth i e' 0 = (1 - nth i (j_gain j) 0 * dt) * nth i e 0.
Proof.
  intros Hw Hh Ha Hl Ee (J & EJ). destruct (Hw J e EJ Ee) as [MJ Lg]. specialize (Ha e J Ee EJ). rewrite (Hh J e EJ Ee) in Ha.
  assert (Lz : List.length e = List.length (vscale dt (vneg (gained j e)))) by (rewrite vscale_length, vneg_length, gained_length; auto).
  eexists. split; [exact Ha|]. split; [unfold vadd; rewrite vmap2_length; lia|]. intros i Hi. rewrite nth_vadd by exact Lz. rewrite nth_vscale, nth_vneg, nth_gained by auto. rewrite Hl. ring.
Qed.
