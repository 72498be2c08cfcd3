(** Costs of one component, further restrictions and looser limits. *)
From Verif Require Import Base Lin LinFacts Mjx Typing Component Problem JaxComponents LocalIK SpecQP QPFacts QPThms QPThms2 QPThms3 SpecSolve SolveFacts ScaleFacts SpecTrade TradeFacts.
Open Scope R_scope.

Lemma total_app L d a b v x y : total_cost L d a v x -> total_cost L d b v y -> total_cost L d (a ++ b) v (x + y).
Proof. intros (xs & F & ->) (ys & G & ->). exists (xs ++ ys). split; [now apply Forall2_app|]. clear. induction xs as [|x xs IH]; cbn; [ring|]. rewrite <- IH. ring. Qed.
Lemma total_app_inv L d a b v z : total_cost L d (a ++ b) v z -> exists x y, total_cost L d a v x /\ total_cost L d b v y /\ z = x + y.
Proof.
  intros (zs & F & ->). apply Forall2_app_inv_l in F. destruct F as (xs & ys & F & G & ->). exists (vsum xs), (vsum ys). split; [now exists xs|]. split; [now exists ys|]. clear. induction xs as [|x xs IH]; cbn; [ring|]. rewrite IH. ring.
Qed.
Lemma total_one L d j v x : total_cost L d [j] v x <-> cost_of L d j v x.
Proof.
  split; [intros (xs & F & ->)|intros H; exists [x]; split; [now constructor|cbn; ring]]. inversion F as [|? y ? ys H F']; subst. inversion F'; subst. cbn. now rewrite Rplus_0_r.
Qed.
Lemma total_split L d a j b v z : total_cost L d (a ++ j :: b) v z <-> exists x y, cost_of L d j v x /\ total_cost L d (a ++ b) v y /\ z = x + y.
Proof.
  split.
  - intros H. apply total_app_inv in H. destruct H as (x & y & H1 & H2 & ->). change (j :: b) with ([j] ++ b) in H2. apply total_app_inv in H2. destruct H2 as (u & w & H3 & H4 & ->). exists u, (x + w). split; [now apply total_one in H3|]. split; [now apply total_app|ring].
  - intros (x & y & H1 & H2 & ->). apply total_app_inv in H2. destruct H2 as (u & w & H3 & H4 & ->). replace (x + (u + w)) with (u + (x + w)) by ring. apply total_app; [exact H3|]. change (j :: b) with ([j] ++ b). apply total_app; [now apply total_one|exact H4].
Qed.

(** Replacing a component by one with the same conditions. *)
Lemma comps_with pd cs : comps_of (with_components pd cs) = map snd cs. Proof. reflexivity. Qed.
Lemma replaced_admissible L d pd l1 n j j' l2 v : jd_comps pd = l1 ++ (n, j) :: l2 -> (obeys L d v j' <-> obeys L d v j) ->
  admissible L d (with_components pd (l1 ++ (n, j') :: l2)) v <-> admissible L d pd v.
Proof.
  intros E K. unfold admissible. rewrite comps_with. unfold comps_of. rewrite E, !map_app. cbn [map snd with_components jd_model jd_vmin jd_vmax]. rewrite !Forall_app, !Forall_cons_iff. unfold obeys in K. tauto.
Qed.
Lemma rescaled_obeys L d s j v : obeys L d v (rescaled s j) <-> obeys L d v j.
Proof. unfold obeys, cbf, holds_exactly. rewrite rescaled_jacobian, rescaled_call, (proj1 (rescaled_kind s j)), (proj2 (rescaled_kind s j)). reflexivity. Qed.

(** A higher cost. *)
Lemma priority L d pd l1 n j l2 s v v' : jd_comps pd = l1 ++ (n, j) :: l2 -> 1 < s * s -> best L d pd v -> best L d (with_components pd (l1 ++ (n, rescaled s j) :: l2)) v' ->
  exists a b a' b', cost_of L d j v a /\ total_cost L d (map snd (l1 ++ l2)) v b /\ cost_of L d j v' a' /\ total_cost L d (map snd (l1 ++ l2)) v' b' /\ a' <= a /\ b <= b'.
Proof.
  intros E Hs (Av & x & X & Hx) (Aw & x' & X' & Hx'). pose proof (fun w => replaced_admissible L d pd l1 n j (rescaled s j) l2 w E (rescaled_obeys L d s j w)) as K. apply K in Aw.
  destruct (Hx v' Aw) as (y & Y & L1). destruct (Hx' v) as (y' & Y' & L2); [now apply K|]. rewrite comps_with in X', Y'. unfold comps_of in X, Y. rewrite E in X, Y. rewrite map_app in *. cbn [map snd] in *.
  apply total_split in X. destruct X as (a & b & X1 & X2 & ->). apply total_split in Y. destruct Y as (a' & b' & Y1 & Y2 & ->). apply total_split in X'. destruct X' as (c' & e' & Z1 & Z2 & ->). apply total_split in Y'. destruct Y' as (c & e & W1 & W2 & ->).
  rewrite (cost_of_fun _ _ _ _ _ _ Z1 (rescaled_cost _ _ s _ _ _ Y1)) in *. rewrite (cost_of_fun _ _ _ _ _ _ W1 (rescaled_cost _ _ s _ _ _ X1)) in *. rewrite (total_cost_fun _ _ _ _ _ _ Z2 Y2) in *. rewrite (total_cost_fun _ _ _ _ _ _ W2 X2) in *.
  exists a, b, a', b'. repeat (split; [assumption|]). assert (a' <= a) by nra. split; [assumption|lra].
Qed.
Lemma total_nonneg L d js v x : Forall nonneg_weights js -> total_cost L d js v x -> 0 <= x.
Proof. intros Hn (xs & F & ->). revert Hn. induction F as [|j y js ys H F IH]; intros Hn; cbn; [lra|]. inversion Hn; subst. pose proof (cost_nonneg _ _ _ _ _ H2 H). specialize (IH H3). lra. Qed.
Lemma penalty L d pd l1 n j l2 s v w : jd_comps pd = l1 ++ (n, j) :: l2 -> s <> 0 -> Forall nonneg_weights (map snd (l1 ++ l2)) -> best L d (with_components pd (l1 ++ (n, rescaled s j) :: l2)) v ->
  admissible L d pd w -> cost_of L d j w 0 -> exists a b, cost_of L d j v a /\ total_cost L d (map snd (l1 ++ l2)) w b /\ a <= b / (s * s).
Proof.
  intros E Hs Hn (Av & x & X & Hx) Aw Cw. pose proof (fun w => replaced_admissible L d pd l1 n j (rescaled s j) l2 w E (rescaled_obeys L d s j w)) as K. destruct (Hx w) as (y & Y & Le); [now apply K|].
  rewrite comps_with in X, Y. rewrite map_app in *. cbn [map snd] in *. apply total_split in X. destruct X as (a & b & X1 & X2 & ->). apply total_split in Y. destruct Y as (a' & b' & Y1 & Y2 & ->).
  rewrite (cost_of_fun _ _ _ _ _ _ Y1 (rescaled_cost _ _ s _ _ _ Cw)) in *. pose proof (total_nonneg _ _ _ _ _ Hn X2) as P.
  pose proof (rescaled_cost L d (/ s) _ _ _ X1) as Q.
  assert (R : rescaled (/ s) (rescaled s j) = j).
  { pose proof (rescaled_back s (mkJD (jd_model pd) [] [] [(n, j)]) Hs ltac:(apply Forall_forall; auto)) as T. unfold rescaled_problem, with_components in T. cbn [map fst snd jd_comps jd_model jd_vmin jd_vmax] in T. injection T. auto. }
  rewrite R in Q. eexists. exists b'. split; [exact Q|]. split; [exact Y2|]. unfold Rdiv. rewrite <- Rinv_mult. rewrite (Rmult_comm b'). apply Rmult_le_compat_l; [|lra]. apply Rlt_le, Rinv_0_lt_compat. destruct (Rlt_dec 0 s); nra.
Qed.

(** One more restriction. *)
Lemma extended_comps pd n j : comps_of (extended pd n j) = comps_of pd ++ [j].
Proof. unfold extended. rewrite comps_with, map_app. reflexivity. Qed.
Lemma extended_admissible L d pd n j v : admissible L d (extended pd n j) v <-> admissible L d pd v /\ obeys L d v j.
Proof.
  unfold admissible. rewrite extended_comps, Forall_app, Forall_cons_iff. cbn [extended with_components jd_model jd_vmin jd_vmax]. unfold obeys. split; [intros (A & B & C & D & E & _); auto|intros ((A & B & C & D) & E); auto 6].
Qed.
Lemma restricts_cost L d j v x : restricts j -> cost_of L d j v x -> x = 0 /\ forall w, cost_of L d j w 0.
Proof.
  intros Hr H. unfold restricts in Hr. inversion H as [W lm k J e E EJ Ee|act W k J e E EJ Ee|g k J E EJ Hf|act W k E]; rewrite E in Hr; try contradiction; try discriminate.
  - subst g. split; [unfold Rdiv; ring|]. intros w. replace 0 with (1 / 2 * (0 / frob2 J) * sq w) at 1 by (unfold Rdiv; ring). now apply (cost_barrier L d j w 0 k J).
  - split; [reflexivity|]. intros w. now apply (cost_hard L d j w act W k).
Qed.
Lemma extended_total L d pd n j v x : restricts j -> total_cost L d (comps_of (extended pd n j)) v x -> total_cost L d (comps_of pd) v x /\ forall w, cost_of L d j w 0.
Proof.
  intros Hr H. rewrite extended_comps in H. apply total_app_inv in H. destruct H as (a & b & A & B & ->). apply total_one in B. destruct (restricts_cost _ _ _ _ _ Hr B) as [-> C]. split; [now rewrite Rplus_0_r|exact C].
Qed.
Lemma restriction_costs L d pd n j v v' : restricts j -> best L d pd v -> best L d (extended pd n j) v' ->
  exists x y, total_cost L d (comps_of pd) v x /\ total_cost L d (comps_of pd) v' y /\ x <= y.
Proof.
  intros Hr (Av & x & X & Hx) (Aw & _). apply extended_admissible in Aw. destruct (Hx v' (proj1 Aw)) as (y & Y & Le). eauto.
Qed.
Lemma restriction_met L d pd n j v : restricts j -> (exists u z, cost_of L d j u z) -> best L d pd v -> obeys L d v j -> best L d (extended pd n j) v.
Proof.
  intros Hr (u0 & z0 & Hz) (Av & x & X & Hx) Ho. destruct (restricts_cost _ _ _ _ _ Hr Hz) as [_ Hc]. split; [now apply extended_admissible|]. exists x. rewrite extended_comps. split.
  - rewrite <- (Rplus_0_r x). apply total_app; [exact X|]. now apply total_one.
  - intros w Hw. apply extended_admissible in Hw. destruct (Hx w (proj1 Hw)) as (y & Y & Le). exists y. split; [|exact Le]. rewrite <- (Rplus_0_r y). apply total_app; [exact Y|]. now apply total_one.
Qed.

(** Points between two vectors. *)
Definition lerp (t : R) (a b : vec) : vec := vadd (vscale (1 - t) a) (vscale t b).
Lemma lerp_length t a b : List.length a = List.length b -> List.length (lerp t a b) = List.length a.
Proof. unfold lerp, vadd, vscale, vmap2. intros H. rewrite map_length, combine_length, !map_length, H. apply Nat.min_id. Qed.
Lemma lerp_cons t x a y b : lerp t (x :: a) (y :: b) = ((1 - t) * x + t * y) :: lerp t a b. Proof. reflexivity. Qed.
Lemma dot_lerp t r : forall a b, List.length a = List.length b -> dot r (lerp t a b) = (1 - t) * dot r a + t * dot r b.
Proof.
  induction r as [|x r IH]; intros [|y a] [|z b] H; try discriminate; unfold dot, vmul, vmap2; cbn; try ring.
  injection H as H. specialize (IH a b H). unfold dot, vmul, vmap2, lerp in IH. cbn in IH. unfold lerp, vadd, vscale, vmap2 in *. rewrite IH. ring.
Qed.
Lemma mv_lerp t A a b : List.length a = List.length b -> mv A (lerp t a b) = lerp t (mv A a) (mv A b).
Proof. intros H. induction A as [|r A IH]; [reflexivity|]. cbn [mv map]. change (map (fun r => dot r ?v) A) with (mv A v). rewrite IH, (dot_lerp t r a b H). reflexivity. Qed.
Lemma vadd_lerp t g : forall a b, List.length a = List.length b -> vadd (lerp t a b) g = lerp t (vadd a g) (vadd b g).
Proof.
  induction g as [|x g IH]; intros [|y a] [|z b] H; try discriminate; try reflexivity. injection H as H. specialize (IH a b H). rewrite lerp_cons. unfold vadd at 1, vmap2. cbn [combine map].
  change (map (fun p => fst p + snd p) (combine ?u ?w)) with (vadd u w) in *. unfold vadd, vmap2 in *. cbn [combine map fst snd]. rewrite lerp_cons. f_equal; [ring|]. exact IH.
Qed.
Lemma sq_lerp t a : forall b, 0 <= t <= 1 -> List.length a = List.length b -> sq (lerp t a b) <= (1 - t) * sq a + t * sq b.
Proof.
  induction a as [|x a IH]; intros [|y b] Ht H; try discriminate; [unfold sq, dot; cbn; lra|]. injection H as H. specialize (IH b Ht H). rewrite lerp_cons. unfold sq in *. rewrite !dot_cons.
  assert (0 <= t * (1 - t) * ((x - y) * (x - y))) by (apply Rmult_le_pos; [apply Rmult_le_pos; lra|apply Rle_0_sqr]). nra.
Qed.
Lemma cost_lerp L d j t v w x y : 0 <= t <= 1 -> List.length v = List.length w -> nonneg_weights j -> cost_of L d j v x -> cost_of L d j w y -> exists z, cost_of L d j (lerp t v w) z /\ z <= (1 - t) * x + t * y.
Proof.
  intros Ht Hl Hn Hx Hy. assert (Ml : forall A : mat, List.length (mv A v) = List.length (mv A w)) by (intros A; now rewrite !mv_length).
  assert (Sq : forall W J g, sq (mv W (vadd (mv J (lerp t v w)) g)) <= (1 - t) * sq (mv W (vadd (mv J v) g)) + t * sq (mv W (vadd (mv J w) g))).
  { intros W J g. rewrite mv_lerp by exact Hl. rewrite vadd_lerp by apply Ml. rewrite mv_lerp; [|unfold vadd, vmap2; now rewrite !map_length, !combine_length, Ml]. apply sq_lerp; [exact Ht|now rewrite !mv_length]. }
  pose proof (sq_lerp t v w Ht Hl) as Sv. unfold nonneg_weights in Hn.
  inversion Hx as [W lm k J e E EJ Ee|act W k J e E EJ Ee|g k J E EJ Hf|act W k E]; inversion Hy as [W' lm' k' J' e' E' EJ' Ee'|act' W' k' J' e' E' EJ' Ee'|g' k' J' E' EJ' Hf'|act' W' k' E']; rewrite E in E', Hn; try discriminate; injection E'; intros; subst;
    try (rewrite EJ in EJ'; injection EJ' as <-); try (rewrite Ee in Ee'; injection Ee' as <-).
  - eexists. split; [eapply cost_task; eauto|]. match goal with |- context [mv ?A (vadd (mv ?B (lerp t v w)) ?g)] => specialize (Sq A B g) end.
    match goal with |- context [?l * sq (mv ?A (gained j ?e))] => assert (Q : 0 <= l * sq (mv A (gained j e))) by (apply Rmult_le_pos; [exact Hn|apply sq_nonneg]); set (c := l * sq (mv A (gained j e))) in * end. clearbody c. nra.
  - eexists. split; [eapply cost_soft; eauto|]. match goal with |- context [mv ?A (vadd (mv ?B (lerp t v w)) ?g)] => specialize (Sq A B g) end. lra.
  - eexists. split; [eapply cost_barrier; eauto|]. match goal with |- context [?h / frob2 ?B] => pose proof (frob2_nonneg B); assert (0 <= h / frob2 B) by (apply Rmult_le_pos; [exact Hn|apply Rlt_le, Rinv_0_lt_compat; lra]); set (c := h / frob2 B) in * end. clearbody c. nra.
  - exists 0. split; [eapply cost_hard; eauto|lra].
Qed.
Lemma total_lerp L d js t v w x y : 0 <= t <= 1 -> List.length v = List.length w -> Forall nonneg_weights js -> total_cost L d js v x -> total_cost L d js w y -> exists z, total_cost L d js (lerp t v w) z /\ z <= (1 - t) * x + t * y.
Proof.
  intros Ht Hl Hn (xs & F & ->) (ys & G & ->). revert ys G. induction F as [|j x js xs H F IH]; intros ys G; inversion G as [|? y ? ys' H' G']; subst.
  - exists 0. split; [now exists []|cbn; lra].
  - inversion Hn; subst. destruct (IH H3 ys' G') as (z & (zs & Z & ->) & Le). destruct (cost_lerp L d j t v w x y Ht Hl H2 H H') as (u & U & Lu). exists (u + vsum zs). split; [exists (u :: zs); split; [now constructor|reflexivity]|]. cbn. nra.
Qed.
Lemma vle_lerp t a b c : 0 <= t <= 1 -> vle b a -> vle c a -> vle (lerp t b c) a.
Proof.
  intros Ht H. revert c. induction H as [|x y b a Hxy H IH]; intros c Hc; inversion Hc; subst; [constructor|]. rewrite lerp_cons. constructor; [nra|now apply IH].
Qed.
Lemma vneg_lerp t a : forall b, vneg (lerp t a b) = lerp t (vneg a) (vneg b).
Proof. induction a as [|x a IH]; intros [|y b]; try reflexivity. rewrite lerp_cons. cbn [vneg map]. change (map Ropp ?l) with (vneg l). rewrite IH. unfold vneg at 3 4. cbn [map]. rewrite lerp_cons. f_equal. ring. Qed.
Lemma vle_lerp_r t a b c : 0 <= t <= 1 -> vle a b -> vle a c -> vle a (lerp t b c).
Proof.
  intros Ht H. revert c. induction H as [|x y a b Hxy H IH]; intros c Hc; inversion Hc; subst; [constructor|]. rewrite lerp_cons. constructor; [nra|now apply IH].
Qed.
Lemma lerp_same t a : lerp t a a = a.
Proof. induction a as [|x a IH]; [reflexivity|]. rewrite lerp_cons, IH. f_equal. ring. Qed.
Lemma admissible_lerp L d pd t v w : 0 <= t <= 1 -> admissible L d pd v -> admissible L d pd w -> admissible L d pd (lerp t v w).
Proof.
  intros Ht (A1 & A2 & A3 & A4) (B1 & B2 & B3 & B4). assert (Hl : List.length v = List.length w) by congruence. split; [now rewrite lerp_length|]. split; [now apply vle_lerp|]. split; [rewrite vneg_lerp; now apply vle_lerp|].
  rewrite Forall_forall in *. intros j Hj. specialize (A4 j Hj). specialize (B4 j Hj). split; intros K J e EJ Ee.
  - rewrite mv_lerp by exact Hl. apply vle_lerp_r; [exact Ht|now apply (proj1 A4 K)|now apply (proj1 B4 K)].
  - rewrite mv_lerp by exact Hl. rewrite (proj2 A4 K J e EJ Ee), (proj2 B4 K J e EJ Ee). apply lerp_same.
Qed.
Lemma lerp_room a : forall b c, Forall2 Rlt a b -> List.length c = List.length b -> exists t, 0 < t <= 1 /\ vle a (lerp t b c).
Proof.
  assert (K : forall b c, Forall2 Rlt a b -> List.length c = List.length b -> exists t0, 0 < t0 <= 1 /\ forall t, 0 <= t <= t0 -> vle a (lerp t b c)).
  { induction a as [|x a IH]; intros b c H Hc; inversion H as [|? y ? b' Hxy H']; subst; destruct c as [|z c]; try discriminate; [exists 1; split; [lra|]; intros; constructor|].
    injection Hc as Hc. destruct (IH b' c H' Hc) as (t0 & T0 & T1). destruct (Rle_dec x z) as [Hz|Hz].
    - exists t0. split; [exact T0|]. intros t Ht. rewrite lerp_cons. constructor; [nra|now apply T1].
    - exists (Rmin t0 ((y - x) / (y - z))). assert (D : 0 < (y - x) / (y - z)) by (apply Rmult_lt_0_compat; [lra|apply Rinv_0_lt_compat; lra]). split; [split; [now apply Rmin_glb_lt|eapply Rle_trans; [apply Rmin_l|lra]]|].
      intros t [H0 H1]. assert (H2 : t <= t0) by (eapply Rle_trans; [exact H1|apply Rmin_l]). assert (H3 : t <= (y - x) / (y - z)) by (eapply Rle_trans; [exact H1|apply Rmin_r]). rewrite lerp_cons. constructor; [|now apply T1].
      apply (Rmult_le_compat_r (y - z)) in H3; [|lra]. replace ((y - x) / (y - z) * (y - z)) with (y - x) in H3 by (field; lra). lra. }
  intros b c H Hc. destruct (K b c H Hc) as (t & T0 & T1). exists t. split; [exact T0|apply T1; lra].
Qed.
(** Whether there is a cost does not depend on the velocity. *)
Lemma cost_any L d j v w x : cost_of L d j v x -> exists y, cost_of L d j w y.
Proof. intros H. inversion H; subst; eexists; [eapply cost_task|eapply cost_soft|eapply cost_barrier|eapply cost_hard]; eauto. Qed.
Lemma total_any L d js v w x : total_cost L d js v x -> exists y, total_cost L d js w y.
Proof.
  intros (xs & F & _). induction F as [|j x' js xs H F IH]; [exists 0; now exists []|]. destruct IH as (y & ys & G & ->). destruct (cost_any _ _ _ _ w _ H) as (z & Z). exists (z + vsum ys), (z :: ys). split; [now constructor|reflexivity].
Qed.
(** A barrier the solution stays strictly clear of has no influence. *)
Lemma inactive_barrier L d pd n j v : restricts j -> Forall nonneg_weights (comps_of pd) -> best L d (extended pd n j) v -> strictly_inside L d v j -> best L d pd v.
Proof.
  intros Hr Hn (Av & x & X & Hx) [Hb Hi]. apply extended_admissible in Av. destruct Av as [Av Ov]. destruct (extended_total _ _ _ _ _ _ _ Hr X) as [X0 C]. split; [exact Av|]. exists x. split; [exact X0|].
  intros w Aw. destruct (total_any _ _ _ _ w _ X0) as (y & Y). exists y. split; [exact Y|]. assert (Hl : List.length v = List.length w) by (rewrite (proj1 Av), (proj1 Aw); reflexivity).
  assert (T : exists t, 0 < t <= 1 /\ obeys L d (lerp t v w) j).
  { assert (Nh : is_hard j = false) by (unfold is_barrier, is_hard in *; destruct (j_ext j); discriminate || reflexivity).
    destruct (jacobian L j d) as [J|] eqn:EJ; [|exists 1; split; [lra|split; [intros _ J0 e0 EJ'; congruence|congruence]]]. destruct (call L j d) as [e|] eqn:Ee; [|exists 1; split; [lra|split; [intros _ J' e0 EJ' Ee'; congruence|congruence]]].
    destruct (lerp_room _ _ (mv J w) (Hi J e eq_refl eq_refl)) as (t & T & V); [now rewrite !mv_length|]. exists t. split; [exact T|]. split; [|congruence]. intros _ J' e' EJ' Ee'. rewrite EJ in EJ'. injection EJ' as <-. rewrite Ee in Ee'. injection Ee' as <-. now rewrite mv_lerp. }
  destruct T as (t & T & O). destruct (Hx (lerp t v w)) as (z & Z & Le).
  - apply extended_admissible. split; [apply admissible_lerp; [lra|exact Av|exact Aw]|exact O].
  - destruct (extended_total _ _ _ _ _ _ _ Hr Z) as [Z0 _]. destruct (total_lerp L d _ t v w x y ltac:(lra) Hl Hn X0 Y) as (u & U & Lu). rewrite (total_cost_fun _ _ _ _ _ _ Z0 U) in Le. nra.
Qed.
(** Looser velocity limits. *)
Lemma vle_trans a b c : vle a b -> vle b c -> vle a c.
Proof. intros H. revert c. induction H as [|x y a b Hxy H IH]; intros c Hc; inversion Hc; subst; constructor; [lra|now apply IH]. Qed.
Lemma vle_vneg a b : vle a b -> vle (vneg b) (vneg a).
Proof. induction 1 as [|x y a b Hxy H IH]; constructor; [lra|exact IH]. Qed.
Lemma loosened_admissible L d pd pd' v : loosened pd pd' -> admissible L d pd v -> admissible L d pd' v.
Proof.
  intros (M & C & A & B) (A1 & A2 & A3 & A4). unfold admissible, comps_of. rewrite M, C. split; [exact A1|]. split; [eapply vle_trans; [exact A2|now apply vle_vneg]|]. split; [eapply vle_trans; eauto|exact A4].
Qed.
Lemma loosening L d pd pd' v v' : loosened pd pd' -> best L d pd v -> best L d pd' v' -> (exists x y, total_cost L d (comps_of pd) v x /\ total_cost L d (comps_of pd) v' y /\ y <= x) /\ (vle v' (vneg (jd_vmin pd)) -> vle (vneg v') (jd_vmax pd) -> best L d pd v').
Proof.
  intros Hl (Av & x & X & Hx) (Aw & y & Y & Hy). assert (E : comps_of pd' = comps_of pd) by (unfold comps_of; destruct Hl as (_ & -> & _); reflexivity). rewrite E in *. split.
  - destruct (Hy v (loosened_admissible _ _ _ _ _ Hl Av)) as (x' & X' & Le). rewrite (total_cost_fun _ _ _ _ _ _ X' X) in Le. eauto.
  - intros V1 V2. destruct Hl as (M & C & A & B). assert (Aw' : admissible L d pd v'). { destruct Aw as (A1 & _ & _ & A4). rewrite E in A4. rewrite M in A1. repeat split; auto. }
    split; [exact Aw'|]. exists y. split; [exact Y|]. intros w Hw. apply Hy. apply (loosened_admissible L d pd pd'); [now split|exact Hw].
Qed.
