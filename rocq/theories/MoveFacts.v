(** Two problems that differ in the value of one undamped task. *)
From Verif Require Import Base Lin LinFacts Mjx Typing Component Problem SpecComponent JaxComponents LocalIK SpecQP QPFacts QPThms QPThms2 QPThms3 QPThms4 SpecSolve SolveFacts SolveThms SpecTrade TradeFacts TradeThms SpecTol TolThms3 SpecMove.
Open Scope R_scope.

Lemma sq_sym a : forall b, sq (vsub a b) = sq (vsub b a).
Proof. induction a as [|x a IH]; intros [|y b]; try reflexivity. change (vsub (x :: a) (y :: b)) with ((x - y) :: vsub a b). change (vsub (y :: b) (x :: a)) with ((y - x) :: vsub b a). unfold sq in *. rewrite !dot_cons, IH. ring. Qed.
Lemma four_squares p : forall p' s s', List.length p = List.length p' -> List.length p = List.length s -> List.length p = List.length s' ->
  sq (vadd p' s) - sq (vadd p s) - sq (vadd p' s') + sq (vadd p s') = 2 * dot (vsub p' p) (vsub s s').
Proof.
  induction p as [|x p IH]; intros [|x' p'] [|a s] [|a' s'] H1 H2 H3; try discriminate; [unfold sq, dot; cbn; ring|]. injection H1 as H1. injection H2 as H2. injection H3 as H3. specialize (IH p' s s' H1 H2 H3).
  change (vadd (?u :: ?l) (?w :: ?k)) with ((u + w) :: vadd l k). change (vsub (?u :: ?l) (?w :: ?k)) with ((u - w) :: vsub l k). unfold sq in *. rewrite !dot_cons. lra.
Qed.
Lemma dot_split u : forall y, List.length u = List.length y -> dot u y <= sq u + sq y / 4 /\ dot u y <= (sq u + sq y) / 2.
Proof.
  induction u as [|x u IH]; intros [|z y] H; try discriminate; [unfold sq, dot; cbn; lra|]. injection H as H. destruct (IH y H). unfold sq in *. rewrite !dot_cons.
  assert (0 <= (x - z / 2) * (x - z / 2)) by apply Rle_0_sqr. assert (0 <= (x - z) * (x - z)) by apply Rle_0_sqr. lra.
Qed.
Section Move.
Context (L : lib) (d : mjdata).
Lemma apart_sym j v w z : apart L d j v w z -> apart L d j w v z.
Proof.
  intros H. inversion H as [W lm k J e E EJ Ee|act W k J E EJ|g k J E EJ|act W k E]; subst.
  - rewrite (sq_sym (mv W (mv J v))), (sq_sym v). eapply apart_task; eauto.
  - rewrite (sq_sym (mv W (mv J v))). eapply apart_soft; eauto.
  - rewrite (sq_sym v). eapply apart_barrier; eauto.
  - eapply apart_hard; eauto.
Qed.
Lemma apart_all_sym js v w zs : Forall2 (fun j z => apart L d j v w z) js zs -> Forall2 (fun j z => apart L d j w v z) js zs.
Proof. induction 1; constructor; [now apply apart_sym|assumption]. Qed.
Lemma apart_nonneg j v w z x : nonneg_weights j -> cost_of L d j v x -> apart L d j v w z -> 0 <= z.
Proof.
  intros Hn Hc H. pose proof (fun u => dot_self_nonneg u : 0 <= sq u) as P. unfold nonneg_weights in Hn. inversion H as [W lm k J e E EJ Ee|act W k J E EJ|g k J E EJ|act W k E]; subst; try rewrite E in Hn.
  - pose proof (P (vsub (mv W (mv J v)) (mv W (mv J w)))). assert (0 <= lm * sq (mv W (gained j e)) * sq (vsub v w)); [|lra]. apply Rmult_le_pos; [apply Rmult_le_pos|]; auto.
  - auto.
  - apply Rmult_le_pos; [|auto]. inversion Hc as [? ? ? ? ? E'|? ? ? ? ? E'|g' k' J' E' EJ' Hf|? ? ? E']; rewrite E in E'; try discriminate. rewrite EJ in EJ'. injection EJ' as <-. apply Rmult_le_pos; [exact Hn|]. left. apply Rinv_0_lt_compat. pose proof (frob2_nonneg J). lra.
  - lra.
Qed.
Lemma apart_sum_nonneg js v w zs xs : Forall nonneg_weights js -> Forall2 (fun j x => cost_of L d j v x) js xs -> Forall2 (fun j z => apart L d j v w z) js zs -> 0 <= vsum zs.
Proof.
  intros Hn F. revert zs Hn. induction F as [|j x js xs H F IH]; intros zs Hn G; inversion G as [|? z ? zs' H' G']; subst; [cbn; lra|]. inversion Hn; subst. cbn [vsum fold_right]. change (fold_right Rplus 0 ?l) with (vsum l).
  specialize (IH zs' ltac:(assumption) G'). pose proof (apart_nonneg j v w z x ltac:(assumption) H H'). lra.
Qed.
Lemma vsum_app a b : vsum (a ++ b) = vsum a + vsum b.
Proof. induction a as [|x a IH]; cbn; [lra|]. change (fold_right Rplus 0 ?l) with (vsum l). rewrite IH. lra. Qed.

Lemma move_bound pd l1 n j j' l2 y v v' : let pd' := with_components pd (l1 ++ (n, j') :: l2) in let nv := m_nv (jd_model pd) in jd_comps pd = l1 ++ (n, j) :: l2 -> shifted L d j j' y ->
  Forall (fits L nv d) (comps_of pd) -> Forall (fits L nv d) (comps_of pd') -> Forall nonneg_weights (map snd (l1 ++ l2)) -> best L d pd v -> best L d pd' v' ->
  exists x zs, apart L d j v v' x /\ Forall2 (fun j z => apart L d j v v' z) (map snd (l1 ++ l2)) zs /\ vsum zs <= y / 4 /\ x + 2 * vsum zs <= y /\ 0 <= vsum zs.
Proof.
  cbv zeta. intros E Hs Hf Hf' Hn B B'. set (pd' := with_components pd (l1 ++ (n, j') :: l2)) in *. destruct Hs as [W k k' J e e' Ex Ex' EJ EJ' Ee Ee' ->].
  assert (Ec : comps_of pd = map snd l1 ++ j :: map snd l2) by (unfold comps_of; rewrite E, map_app; reflexivity).
  assert (Ec' : comps_of pd' = map snd l1 ++ j' :: map snd l2) by (unfold comps_of, pd'; cbn [jd_comps with_components]; rewrite map_app; reflexivity).
  assert (Adm : forall u, admissible L d pd u <-> admissible L d pd' u).
  { intros u. unfold admissible. change (jd_model pd') with (jd_model pd). change (jd_vmin pd') with (jd_vmin pd). change (jd_vmax pd') with (jd_vmax pd). rewrite Ec, Ec', !Forall_app, !Forall_cons_iff. unfold is_barrier, is_hard. rewrite Ex, Ex'. intuition discriminate. }
  destruct (gap_bounds L d pd v v' Hf B) as (x & x' & zs & X & X' & Z & Le); [apply Adm, B'|].
  destruct (gap_bounds L d pd' v' v Hf' B') as (w' & w & us & Y' & Y & U & Le'); [apply Adm, B|].
  destruct B as [[Lv _] _]. destruct B' as [[Lv' _] _]. change (jd_model pd') with (jd_model pd) in Lv'. rewrite Ec in *. rewrite Ec' in *.
  destruct X as (xs & X & ->). destruct X' as (xs' & X' & ->). destruct Y as (ys & Y & ->). destruct Y' as (ys' & Y' & ->).
  apply Forall2_app_inv_l in X as (x1 & x0 & X1 & X0 & ->). inversion X0 as [|? a ? x2 XJ X2]; subst. clear X0.
  apply Forall2_app_inv_l in X' as (x1' & x0 & X1' & X0 & ->). inversion X0 as [|? a' ? x2' XJ' X2']; subst. clear X0.
  apply Forall2_app_inv_l in Y as (y1 & x0 & Y1 & X0 & ->). inversion X0 as [|? b ? y2 YJ Y2]; subst. clear X0.
  apply Forall2_app_inv_l in Y' as (y1' & x0 & Y1' & X0 & ->). inversion X0 as [|? b' ? y2' YJ' Y2']; subst. clear X0.
  apply Forall2_app_inv_l in Z as (z1 & x0 & Z1 & X0 & ->). inversion X0 as [|? z ? z2 ZJ Z2]; subst. clear X0.
  apply Forall2_app_inv_l in U as (u1 & x0 & U1 & X0 & ->). inversion X0 as [|? u ? u2 UJ U2]; subst. clear X0.
  assert (Same : forall js v xs ys, Forall2 (fun j x => cost_of L d j v x) js xs -> Forall2 (fun j x => cost_of L d j v x) js ys -> vsum xs = vsum ys).
  { intros js v0 p q Fp Fq. apply (total_cost_fun L d js v0); [exists p|exists q]; auto. }
  pose proof (Same _ _ _ _ Y1 X1) as S1. pose proof (Same _ _ _ _ Y2 X2) as S2. pose proof (Same _ _ _ _ Y1' X1') as S1'. pose proof (Same _ _ _ _ Y2' X2') as S2'.
  assert (Z1' : u1 = z1) by (apply (apart_all_unique L d _ _ _ _ U1); now apply apart_all_sym). assert (Z2' : u2 = z2) by (apply (apart_all_unique L d _ _ _ _ U2); now apply apart_all_sym). subst u1 u2.
  rewrite !vsum_app in *. cbn [vsum fold_right] in Le, Le'. change (fold_right Rplus 0 ?l) with (vsum l) in *.
  assert (Fj : fits L (m_nv (jd_model pd)) d j) by (rewrite Forall_app, Forall_cons_iff in Hf; apply Hf). assert (Fj' : fits L (m_nv (jd_model pd)) d j') by (rewrite Forall_app, Forall_cons_iff in Hf'; apply Hf').
  destruct Fj as (J0 & e0 & EJ0 & Ee0 & SJ & Lg & SW). rewrite EJ in EJ0. injection EJ0 as <-. rewrite Ee in Ee0. injection Ee0 as <-. rewrite Ex in SW.
  destruct Fj' as (J0 & e0 & EJ0 & Ee0 & SJ' & Lg' & SW'). rewrite EJ' in EJ0. injection EJ0 as <-. rewrite Ee' in Ee0. injection Ee0 as <-.
  assert (Lgd : List.length (gained j e) = List.length J) by (rewrite gained_length by exact Lg; symmetry; apply SJ). assert (Lgd' : List.length (gained j' e') = List.length J) by (rewrite gained_length by exact Lg'; symmetry; apply SJ').
  set (g := gained j e) in *. set (g' := gained j' e') in *.
  assert (Cost : forall v a, cost_of L d j v a -> a = 1 / 2 * sq (vadd (mv W (mv J v)) (mv W g))).
  { intros v0 a0 C. inversion C as [W1 lm1 k1 J1 e1 E1 EJ1 Ee1|? ? ? ? ? E1|? ? ? E1|? ? ? E1]; rewrite Ex in E1; try discriminate. injection E1 as <- <- _. rewrite EJ in EJ1. injection EJ1 as <-. rewrite Ee in Ee1. injection Ee1 as <-. fold g. rewrite mv_vadd by (rewrite mv_length; congruence). ring. }
  assert (Cost' : forall v a, cost_of L d j' v a -> a = 1 / 2 * sq (vadd (mv W (mv J v)) (mv W g'))).
  { intros v0 a0 C. inversion C as [W1 lm1 k1 J1 e1 E1 EJ1 Ee1|? ? ? ? ? E1|? ? ? E1|? ? ? E1]; rewrite Ex' in E1; try discriminate. injection E1 as <- <- _. rewrite EJ' in EJ1. injection EJ1 as <-. rewrite Ee' in Ee1. injection Ee1 as <-. fold g'. rewrite mv_vadd by (rewrite mv_length; congruence). ring. }
  assert (Ap : z = sq (vsub (mv W (mv J v)) (mv W (mv J v')))).
  { inversion ZJ as [W1 lm1 k1 J1 e1 E1 EJ1 Ee1|? ? ? ? E1|? ? ? E1|? ? ? E1]; rewrite Ex in E1; try discriminate. injection E1 as <- <- _. rewrite EJ in EJ1. injection EJ1 as <-. ring. }
  assert (Ap' : u = z).
  { inversion UJ as [W1 lm1 k1 J1 e1 E1 EJ1 Ee1|? ? ? ? E1|? ? ? E1|? ? ? E1]; rewrite Ex' in E1; try discriminate. injection E1 as <- <- _. rewrite EJ' in EJ1. injection EJ1 as <-. rewrite Ap, sq_sym. ring. }
  apply Cost in XJ, XJ'. apply Cost' in YJ, YJ'. pose proof (four_squares (mv W (mv J v)) (mv W (mv J v')) (mv W g) (mv W g') ltac:(now rewrite !mv_length) ltac:(now rewrite !mv_length) ltac:(now rewrite !mv_length)) as Q.
  rewrite <- (mv_vsub W g g') in Q by congruence.
  destruct (dot_split (vsub (mv W (mv J v')) (mv W (mv J v))) (mv W (vsub g g'))) as [D1 D2]; [rewrite vsub_length; rewrite !mv_length; reflexivity|].
  rewrite (sq_sym (mv W (mv J v'))), <- Ap in D1, D2.
  exists z, (z1 ++ z2). split; [exact ZJ|]. rewrite map_app. split; [now apply Forall2_app|]. rewrite vsum_app.
  assert (P : 0 <= vsum z1 + vsum z2). { rewrite map_app, Forall_app in Hn. destruct Hn as [N1 N2]. pose proof (apart_sum_nonneg _ _ _ _ _ N1 X1 Z1). pose proof (apart_sum_nonneg _ _ _ _ _ N2 X2 Z2). lra. }
  subst u. lra.
Qed.
End Move.
