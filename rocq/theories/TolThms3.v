(** What a gap in the objective says about the velocity, and what damping says about speed. *)
From Verif Require Import Base Lin LinFacts Mjx Typing Component Problem SpecShape SpecHistory SpecProblem SpecFit SpecTrace JaxComponents LocalIK SpecQP QPFacts QPThms QPThms2 QPThms3 QPThms4 SpecSolve SolveFacts SolveThms FitFacts FitFacts2 FitFacts3 SpecTrade TradeFacts TradeThms SpecTol.
Open Scope R_scope.

Lemma sq_lerp_eq t a : forall b, List.length a = List.length b -> sq (lerp t a b) = (1 - t) * sq a + t * sq b - t * (1 - t) * sq (vsub a b).
Proof.
  induction a as [|x a IH]; intros [|y b] H; try discriminate; [unfold sq, dot; cbn; ring|]. injection H as H. specialize (IH b H). rewrite lerp_cons.
  change (vsub (x :: a) (y :: b)) with ((x - y) :: vsub a b). unfold sq in *. rewrite !dot_cons, IH. ring.
Qed.
Lemma dot_sub r : forall a b g, List.length a = List.length b -> List.length a = List.length g -> dot r (vadd a g) - dot r (vadd b g) = dot r a - dot r b.
Proof.
  induction r as [|x r IH]; intros [|y a] [|z b] [|u g] H G; try discriminate; try reflexivity. injection H as H. injection G as G.
  change (vadd (y :: a) (u :: g)) with ((y + u) :: vadd a g). change (vadd (z :: b) (u :: g)) with ((z + u) :: vadd b g). rewrite !dot_cons. specialize (IH a b g H G). lra.
Qed.
Lemma mv_sub W a b g : List.length a = List.length b -> List.length a = List.length g -> vsub (mv W (vadd a g)) (mv W (vadd b g)) = vsub (mv W a) (mv W b).
Proof.
  intros H G. induction W as [|r W IH]; [reflexivity|]. cbn [mv map]. change (map (fun r => dot r ?v) W) with (mv W v).
  change (vsub (?x :: ?a) (?y :: ?b)) with ((x - y) :: vsub a b). rewrite IH, dot_sub by assumption. reflexivity.
Qed.

Lemma parallelogram a : forall b, List.length a = List.length b -> sq b <= 2 * sq a + 2 * sq (vsub a b).
Proof.
  induction a as [|x a IH]; intros [|y b] H; try discriminate; [unfold sq, dot; cbn; lra|]. injection H as H. specialize (IH b H). change (vsub (x :: a) (y :: b)) with ((x - y) :: vsub a b). unfold sq in *. rewrite !dot_cons.
  assert (0 <= (2 * x - y) * (2 * x - y)) by apply Rle_0_sqr. lra.
Qed.
Lemma sq_pos v x : In x v -> x <> 0 -> 0 < sq v.
Proof.
  intros Hi Hx. induction v as [|y v IH]; [destruct Hi|]. unfold sq in *. rewrite dot_cons. pose proof (dot_self_nonneg v). assert (0 <= y * y) by apply Rle_0_sqr. destruct Hi as [->|Hi]; [assert (0 < x * x) by (apply Rsqr_pos_lt; exact Hx); lra|specialize (IH Hi); lra].
Qed.
Lemma vsub_zero v n : List.length v = n -> vsub v (vzero n) = v.
Proof. intros <-. induction v as [|x v IH]; [reflexivity|]. cbn [List.length vzero repeat]. change (repeat 0 ?n) with (vzero n). change (vsub (x :: v) (0 :: ?b)) with ((x - 0) :: vsub v b). rewrite IH. f_equal. ring. Qed.

Section Gap.
Context (L : lib) (d : mjdata).
Lemma cost_eq j v x y : cost_of L d j v x -> x = y -> cost_of L d j v y. Proof. intros H <-. exact H. Qed.
Lemma cost_gap nv j v w x y t : fits L nv d j -> List.length v = List.length w -> cost_of L d j v x -> cost_of L d j w y ->
  exists z, apart L d j v w z /\ cost_of L d j (lerp t v w) ((1 - t) * x + t * y - t * (1 - t) / 2 * z).
Proof.
  intros (J0 & e0 & EJ0 & Ee0 & SJ & Lg & _) Hl Hx Hy.
  assert (Sq : forall W, sq (mv W (vadd (mv J0 (lerp t v w)) (gained j e0))) = (1 - t) * sq (mv W (vadd (mv J0 v) (gained j e0))) + t * sq (mv W (vadd (mv J0 w) (gained j e0))) - t * (1 - t) * sq (vsub (mv W (mv J0 v)) (mv W (mv J0 w)))).
  { intros W. assert (Ml : List.length (mv J0 v) = List.length (mv J0 w)) by now rewrite !mv_length. assert (Lga : List.length (mv J0 v) = List.length (gained j e0)) by (rewrite mv_length, gained_length by exact Lg; apply SJ).
    rewrite (mv_lerp t J0 v w Hl), vadd_lerp by exact Ml. rewrite mv_lerp by (rewrite !vadd_length; congruence). rewrite sq_lerp_eq by now rewrite !mv_length. now rewrite mv_sub. }
  inversion Hx as [W lm k J e E EJ Ee|act W k J e E EJ Ee|g k J E EJ Hf|act W k E]; subst; inversion Hy as [W' lm' k' J' e' E' EJ' Ee'|act' W' k' J' e' E' EJ' Ee'|g' k' J' E' EJ' Hf'|act' W' k' E']; subst;
    rewrite E in E'; try discriminate; injection E' as; subst.
  - rewrite EJ0 in EJ, EJ'. injection EJ as <-. injection EJ' as <-. rewrite Ee0 in Ee, Ee'. injection Ee as <-. injection Ee' as <-. eexists. split; [eapply apart_task; eauto|].
    eapply cost_eq; [eapply cost_task; eauto|]. rewrite (Sq W'), (sq_lerp_eq t v w Hl). set (p := sq (mv W' (gained j e0))). clearbody p. field.
  - rewrite EJ0 in EJ, EJ'. injection EJ as <-. injection EJ' as <-. rewrite Ee0 in Ee, Ee'. injection Ee as <-. injection Ee' as <-. eexists. split; [eapply apart_soft; eauto|].
    eapply cost_eq; [eapply cost_soft; eauto|]. rewrite (Sq W'). field.
  - rewrite EJ in EJ'. injection EJ' as <-. eexists. split; [eapply apart_barrier; eauto|]. eapply cost_eq; [eapply cost_barrier; eauto|]. rewrite (sq_lerp_eq t v w Hl). field. exact Hf.
  - exists 0. split; [eapply apart_hard; eauto|]. replace ((1 - t) * 0 + t * 0 - t * (1 - t) / 2 * 0) with 0 by (unfold Rdiv; ring). eapply cost_hard; eauto.
Qed.
Lemma apart_unique j v w x y : apart L d j v w x -> apart L d j v w y -> x = y.
Proof.
  intros Hx Hy. inversion Hx as [W lm k J e E EJ Ee|act W k J E EJ|g k J E EJ|act W k E]; subst; inversion Hy as [W' lm' k' J' e' E' EJ' Ee'|act' W' k' J' E' EJ'|g' k' J' E' EJ'|act' W' k' E']; subst;
    rewrite E in E'; try discriminate; injection E' as; subst; congruence.
Qed.
Lemma total_gap nv js v w x y t : Forall (fits L nv d) js -> List.length v = List.length w -> total_cost L d js v x -> total_cost L d js w y ->
  exists zs, Forall2 (fun j z => apart L d j v w z) js zs /\ total_cost L d js (lerp t v w) ((1 - t) * x + t * y - t * (1 - t) / 2 * vsum zs).
Proof.
  intros Hf Hl (xs & F & ->) (ys & G & ->). revert ys G Hf. induction F as [|j x js xs H F IH]; intros ys G Hf; inversion G as [|? y ? ys' H' G']; subst.
  - exists []. split; [constructor|]. exists []. split; [constructor|]. cbn. field.
  - inversion Hf as [|? ? H1 H2]; subst. destruct (IH ys' G' H2) as (zs & Z & us & U & E). destruct (cost_gap nv j v w x y t H1 Hl H H') as (z & A & C).
    exists (z :: zs). split; [now constructor|]. eexists. split; [constructor; [exact C|exact U]|]. cbn [vsum fold_right]. fold (vsum xs) (vsum ys') (vsum zs) (vsum us). change (fold_right Rplus 0 ?l) with (vsum l) in *. rewrite <- E. field.
Qed.
Lemma apart_all_unique js v w zs : Forall2 (fun j z => apart L d j v w z) js zs -> forall us, Forall2 (fun j z => apart L d j v w z) js us -> zs = us.
Proof. induction 1 as [|j z js zs H F IH]; intros us G; inversion G; subst; [reflexivity|]. f_equal; [eapply apart_unique; eauto|auto]. Qed.
Lemma gap_bounds pd v w : Forall (fits L (m_nv (jd_model pd)) d) (comps_of pd) -> best L d pd v -> admissible L d pd w ->
  exists x y zs, total_cost L d (comps_of pd) v x /\ total_cost L d (comps_of pd) w y /\ Forall2 (fun j z => apart L d j v w z) (comps_of pd) zs /\ vsum zs <= 2 * (y - x).
Proof.
  intros Hf (Av & x & X & Hx) Aw. destruct (Hx w Aw) as (y & Y & Le). assert (Hl : List.length v = List.length w) by (destruct Av as [-> _], Aw as [-> _]; reflexivity).
  destruct (total_gap _ _ v w x y 1 Hf Hl X Y) as (zs & Z & _). exists x, y, zs. split; [exact X|]. split; [exact Y|]. split; [exact Z|].
  assert (K : forall t, 0 < t <= 1 -> (1 - t) * vsum zs <= 2 * (y - x)).
  { intros t Ht. destruct (total_gap _ _ v w x y t Hf Hl X Y) as (us & U & T). rewrite <- (apart_all_unique _ _ _ _ Z _ U) in T. destruct (Hx (lerp t v w)) as (c & C & Lc); [apply admissible_lerp; auto; lra|].
    pose proof (total_cost_fun _ _ _ _ _ _ C T) as ->. assert (0 <= t * (2 * (y - x) - (1 - t) * vsum zs)) by lra. destruct (Rle_or_lt ((1 - t) * vsum zs) (2 * (y - x))); [assumption|]. exfalso. assert (t * (2 * (y - x) - (1 - t) * vsum zs) < 0) by (rewrite <- (Rmult_0_r t); apply Rmult_lt_compat_l; lra). lra. }
  destruct (Rle_or_lt (vsum zs) (2 * (y - x))); [assumption|]. exfalso. set (D := vsum zs) in *. assert (Dp : 0 < D) by lra. specialize (K ((D - 2 * (y - x)) / (2 * D))).
  assert (0 < (D - 2 * (y - x)) / (2 * D)) by (apply Rdiv_lt_0_compat; lra). assert ((D - 2 * (y - x)) / (2 * D) <= 1) by (apply Rmult_le_reg_r with (2 * D); [lra|]; unfold Rdiv; rewrite Rmult_assoc, Rinv_l by lra; lra).
  assert (E : (1 - (D - 2 * (y - x)) / (2 * D)) * D = D / 2 + (y - x)) by (field; lra). specialize (K ltac:(lra)). rewrite E in K. lra.
Qed.
Lemma speed_term nv lam j v x y z : fits L nv d j -> robust lam j -> List.length v = nv -> cost_of L d j v x -> cost_of L d j (vzero nv) y -> apart L d j v (vzero nv) z ->
  exists E, 0 <= E /\ (off_target L d j -> 0 < E) /\ E * (2 * lam * sq v - 1 / 2) <= z - 2 * y + 2 * x.
Proof.
  intros (J0 & e0 & EJ0 & Ee0 & SJ & Lg & _) Hr Hl Hx Hy Hz. pose proof (dot_self_nonneg v) as Pv. change (dot v v) with (sq v) in Pv. unfold robust in Hr.
  inversion Hx as [W lm k J e E EJ Ee|act W k J e E EJ Ee|g k J E EJ Hf|act W k E]; subst; inversion Hy as [W' lm' k' J' e' E' EJ' Ee'|act' W' k' J' e' E' EJ' Ee'|g' k' J' E' EJ' Hf'|act' W' k' E']; subst;
    rewrite E in E'; try discriminate; injection E' as; subst; inversion Hz as [W'' lm'' k'' J'' e'' E'' EJ'' Ee''|act'' W'' k'' J'' E'' EJ''|g'' k'' J'' E'' EJ''|act'' W'' k'' E'']; subst; rewrite E in E''; try discriminate; injection E'' as; subst; rewrite E in Hr; try discriminate.
  - rewrite EJ0 in EJ, EJ', EJ''. injection EJ as <-. injection EJ' as <-. injection EJ'' as <-. rewrite Ee0 in Ee, Ee', Ee''. injection Ee as <-. injection Ee' as <-. injection Ee'' as <-.
    assert (Lga : List.length J0 = List.length (gained j e0)) by (rewrite gained_length by exact Lg; apply SJ).
    rewrite !sq_vzero, (vsub_zero v) by reflexivity. rewrite mv_vzero_r, (vadd_zero_l (List.length J0)) by now symmetry. set (g := gained j e0) in *.
    pose proof (parallelogram (mv W'' (vadd (mv J0 v) g)) (mv W'' g) ltac:(now rewrite !mv_length)) as P. replace (vsub (mv W'' (vadd (mv J0 v) g)) (mv W'' g)) with (vsub (mv W'' (mv J0 v)) (mv W'' (vzero (List.length J0)))) in P.
    2: { rewrite <- (mv_sub W'' (mv J0 v) (vzero (List.length J0)) g); [|rewrite mv_length, vzero_length; reflexivity|rewrite mv_length; exact Lga]. now rewrite (vadd_zero_l (List.length J0)) by now symmetry. }
    exists (sq (mv W'' g)). assert (PE : 0 <= sq (mv W'' g)) by apply dot_self_nonneg. split; [exact PE|]. split.
    + intros (W1 & lm1 & k1 & e1 & u & E1 & Ee1 & Hi & Hu). rewrite E in E1. injection E1 as <- _ _. rewrite Ee0 in Ee1. injection Ee1 as <-. exact (sq_pos _ u Hi Hu).
    + assert (0 <= (lm'' - lam) * (sq (mv W'' g) * sq v)) by (apply Rmult_le_pos; [lra|now apply Rmult_le_pos]). lra.
  - rewrite EJ0 in EJ, EJ', EJ''. injection EJ as <-. injection EJ' as <-. injection EJ'' as <-. exists 0. split; [lra|]. split; [intros (? & ? & ? & ? & ? & E1 & _); rewrite E in E1; discriminate|].
    rewrite sq_vzero, (vsub_zero v) by reflexivity. assert (0 <= g'' / frob2 J0 * sq v); [|lra]. apply Rmult_le_pos; [|exact Pv]. apply Rmult_le_pos; [exact Hr|]. left. apply Rinv_0_lt_compat. pose proof (frob2_nonneg J0). lra.
  - exists 0. split; [lra|]. split; [intros (? & ? & ? & ? & ? & E1 & _); rewrite E in E1; discriminate|]. lra.
Qed.
Lemma speed_terms nv lam v js xs : List.length v = nv -> Forall (fits L nv d) js -> Forall (robust lam) js -> Forall2 (fun j x => cost_of L d j v x) js xs -> forall ys zs, Forall2 (fun j y => cost_of L d j (vzero nv) y) js ys -> Forall2 (fun j z => apart L d j v (vzero nv) z) js zs ->
  exists E, 0 <= E /\ (Exists (off_target L d) js -> 0 < E) /\ E * (2 * lam * sq v - 1 / 2) <= vsum zs - 2 * vsum ys + 2 * vsum xs.
Proof.
  intros Hl Hf Hr F. revert Hf Hr. induction F as [|j x js xs H F IH]; intros Hf Hr ys zs G Z; inversion G as [|? y ? ys' H' G']; subst; inversion Z as [|? z ? zs' H'' Z']; subst.
  - exists 0. split; [lra|]. split; [intros K; inversion K|]. cbn. lra.
  - inversion Hf; subst. inversion Hr; subst. destruct (IH ltac:(assumption) ltac:(assumption) ys' zs' G' Z') as (E & E1 & E2 & E3). destruct (speed_term _ lam j v x y z ltac:(eassumption) ltac:(assumption) eq_refl H H' H'') as (D & D1 & D2 & D3).
    exists (D + E). split; [lra|]. split; [intros K; inversion K as [? ? K1|? ? K1]; subst; [specialize (D2 K1)|specialize (E2 K1)]; lra|]. cbn [vsum fold_right]. change (fold_right Rplus 0 ?l) with (vsum l) in *. lra.
Qed.
Lemma speed_bound pd lam v : 0 < lam -> Forall (fits L (m_nv (jd_model pd)) d) (comps_of pd) -> Forall (robust lam) (comps_of pd) -> best L d pd v -> admissible L d pd (vzero (m_nv (jd_model pd))) -> Exists (off_target L d) (comps_of pd) ->
  sq v <= 1 / (4 * lam).
Proof.
  intros Pl Hf Hr Hb H0 He. destruct (gap_bounds pd v _ Hf Hb H0) as (x & y & zs & (xs & X & ->) & (ys & Y & ->) & Z & Le). destruct Hb as [[Lv _] _].
  destruct (speed_terms _ lam v _ xs Lv Hf Hr X ys zs Y Z) as (E & E1 & E2 & E3). specialize (E2 He). assert (K : 2 * lam * sq v - 1 / 2 <= 0) by nra.
  apply Rmult_le_reg_r with (4 * lam); [lra|]. unfold Rdiv. rewrite Rmult_assoc, Rinv_l by lra. lra.
Qed.
End Gap.
Lemma apart_eq L d j v w x y : apart L d j v w x -> x = y -> apart L d j v w y. Proof. intros H <-. exact H. Qed.
Lemma program_gap L m os pi pd d v w : tidy m os -> compiled_by os pi pd -> sound_lib L m -> wf_data m d -> Forall (accepted L d) (comps_of pd) -> best L d pd v -> admissible L d pd w ->
  exists x y zs, total_cost L d (comps_of pd) v x /\ total_cost L d (comps_of pd) w y /\ Forall2 (fun j z => apart L d j v w z) (comps_of pd) zs /\ vsum zs <= 2 * (y - x).
Proof. intros Ht Hc HL Hd Ha. destruct (program_components m os pi pd Ht Hc) as (E & _). destruct (program_fits L m os pi pd d Ht Hc HL Hd Ha) as [_ F]. apply gap_bounds. rewrite E. exact F. Qed.
Lemma program_speed L m os pi pd d lam v : tidy m os -> compiled_by os pi pd -> sound_lib L m -> wf_data m d -> Forall (accepted L d) (comps_of pd) -> 0 < lam -> Forall (robust lam) (comps_of pd) -> best L d pd v -> admissible L d pd (vzero (m_nv m)) -> Exists (off_target L d) (comps_of pd) -> sq v <= 1 / (4 * lam).
Proof. intros Ht Hc HL Hd Ha Pl Hr Hb H0. destruct (program_components m os pi pd Ht Hc) as (E & _). destruct (program_fits L m os pi pd d Ht Hc HL Hd Ha) as [_ F]. apply speed_bound; auto; rewrite E; assumption. Qed.
