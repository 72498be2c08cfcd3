(** A best velocity reduces the weighted error. *)
From Verif Require Import Base Lin LinFacts Mjx Typing Component Problem JaxComponents LocalIK SpecQP QPFacts QPThms QPThms2 QPThms3 SpecSolve SolveFacts SpecDescent.
Open Scope R_scope.
Local Opaque dot.

Lemma mv_scaled A k v : mv A (vscale k v) = vscale k (mv A v).
Proof. unfold mv, vscale. rewrite map_map. apply map_ext. intros r. apply dot_vscale_r. Qed.
Lemma vle_scaled s a b : 0 <= s <= 1 -> vle a b -> vle (vzero (List.length a)) b -> vle (vscale s a) b.
Proof.
  intros Hs H. unfold vle, vscale, vzero. induction H as [|x y a b Hx H IH]; cbn; intros K; [constructor|]. inversion K; subst. constructor; [|auto]. nra.
Qed.
Lemma vneg_scaled s a : vneg (vscale s a) = vscale s (vneg a).
Proof. unfold vneg, vscale. rewrite !map_map. apply map_ext. intros. ring. Qed.
Lemma vscale_vzero s n : vscale s (vzero n) = vzero n.
Proof. unfold vscale, vzero. induction n; cbn; [reflexivity|]. now rewrite IHn, Rmult_0_r. Qed.
Lemma vneg_vzero n : vneg (vzero n) = vzero n.
Proof. unfold vneg, vzero. induction n; cbn; [reflexivity|]. now rewrite IHn, Ropp_0. Qed.

Section Here.
Context (L : lib) (d : mjdata) (pd : jdata).
Notation nv := (m_nv (jd_model pd)).

Lemma admissible_scaled s v : 0 <= s <= 1 -> admissible L d pd v -> admissible L d pd (vzero nv) -> admissible L d pd (vscale s v).
Proof.
  intros Hs (Lv & A & B & C) (_ & A0 & B0 & C0). split; [now rewrite vscale_length|].
  split; [apply vle_scaled; auto; now rewrite Lv|]. split; [rewrite vneg_scaled; apply vle_scaled; auto; unfold vneg at 1; rewrite map_length, Lv; now rewrite vneg_vzero in B0|].
  rewrite !Forall_forall in *. intros j Hj. destruct (C j Hj) as [C1 C2], (C0 j Hj) as [D1 D2]. split.
  - intros K J e EJ Ee. specialize (C1 K J e EJ Ee). specialize (D1 K J e EJ Ee). rewrite mv_vzero_r in D1. rewrite mv_scaled.
    rewrite <- (vneg_vneg (vscale s (mv J v))). apply vle_neg. rewrite vneg_scaled. apply vle_scaled; [exact Hs| |].
    + apply vle_neg. now rewrite vneg_vneg.
    + apply vle_neg. rewrite vneg_vzero. unfold vneg at 2. rewrite map_length, mv_length. exact D1.
  - intros K J e EJ Ee. specialize (C2 K J e EJ Ee). specialize (D2 K J e EJ Ee). rewrite mv_vzero_r in D2. rewrite mv_scaled, C2, <- D2. now rewrite vscale_vzero.
Qed.

(** The cost along the ray through [v]. *)
Definition ray (j : jaxc) (v : vec) (c : R * R * R) : Prop := forall s, cost_of L d j (vscale s v) (fst (fst c) + s * snd (fst c) + s * s / 2 * snd c).
Lemma sq_ray (a b : vec) s : List.length a = List.length b -> sq (vadd (vscale s a) b) = s * s * sq a + 2 * s * dot b a + sq b.
Proof. intros H. rewrite sq_vadd by now rewrite vscale_length. unfold sq. rewrite !dot_vscale_l, !dot_vscale_r, (dot_comm a b). ring. Qed.
Lemma cost_ray j v x p : well_shaped L nv d j -> nonneg_weights j -> cost_of L d j v x ->
  progress L d v j p -> exists c0 a, ray j v (c0, fst p, a) /\ snd p <= a.
Proof.
  intros Hw Hn Hc Hp. inversion Hc as [W lm k J e E EJ Ee|act W k J e E EJ Ee|g k J E EJ Hf|act W k E]; subst; clear Hc.
  - destruct (Hw J e EJ Ee) as [MJ Lg]. unfold nonneg_weights in Hn. rewrite E in Hn.
    inversion Hp as [J' e' S EJ' Ee'|S]; subst; [|unfold seeks in S; rewrite E in S; discriminate]. rewrite EJ in EJ'. injection EJ' as <-. rewrite Ee in Ee'. injection Ee' as <-. cbn [fst snd]. unfold weight_of. rewrite E.
    exists (1 / 2 * sq (mv W (gained j e))), (sq (mv W (mv J v)) + lm * sq (mv W (gained j e)) * sq v). split.
    + intros s. cbn [fst snd]. pose proof (cost_task L d j (vscale s v) W lm k J e E EJ Ee) as K. rewrite mv_scaled in K.
      assert (Lz : List.length (vscale s (mv J v)) = List.length (gained j e)) by (rewrite vscale_length, mv_length, gained_length by exact Lg; apply MJ).
      rewrite mv_vadd in K by exact Lz. rewrite mv_scaled in K. rewrite sq_ray in K by now rewrite !mv_length.
      replace (sq (vscale s v)) with (s * s * sq v) in K by (unfold sq; rewrite dot_vscale_l, dot_vscale_r; ring).
      match type of K with cost_of _ _ _ _ ?u => match goal with |- cost_of _ _ _ _ ?w => replace w with u by field end end. exact K.
    + pose proof (sq_nonneg (mv W (gained j e))). pose proof (sq_nonneg v). pose proof (Rmult_le_pos _ _ Hn H). pose proof (Rmult_le_pos _ _ H1 H0). lra.
  - destruct (Hw J e EJ Ee) as [MJ Lg].
    inversion Hp as [J' e' S EJ' Ee'|S]; subst; [|unfold seeks in S; rewrite E in S; discriminate]. rewrite EJ in EJ'. injection EJ' as <-. rewrite Ee in Ee'. injection Ee' as <-. cbn [fst snd]. unfold weight_of. rewrite E.
    exists (1 / 2 * sq (mv W (gained j e))), (sq (mv W (mv J v))). split; [|lra].
    intros s. cbn [fst snd]. pose proof (cost_soft L d j (vscale s v) act W k J e E EJ Ee) as K. rewrite mv_scaled in K.
    assert (Lz : List.length (vscale s (mv J v)) = List.length (gained j e)) by (rewrite vscale_length, mv_length, gained_length by exact Lg; apply MJ).
    rewrite mv_vadd in K by exact Lz. rewrite mv_scaled in K. rewrite sq_ray in K by now rewrite !mv_length.
    match type of K with cost_of _ _ _ _ ?u => match goal with |- cost_of _ _ _ _ ?w => replace w with u by field end end. exact K.
  - inversion Hp as [J' e' S EJ' Ee'|S]; subst; [unfold seeks in S; rewrite E in S; discriminate|]. cbn [fst snd]. unfold nonneg_weights in Hn. rewrite E in Hn.
    exists 0, (g / frob2 J * sq v). split.
    + intros s. cbn [fst snd]. pose proof (cost_barrier L d j (vscale s v) g k J E EJ Hf) as K. replace (sq (vscale s v)) with (s * s * sq v) in K by (unfold sq; rewrite dot_vscale_l, dot_vscale_r; ring).
      match type of K with cost_of _ _ _ _ ?u => match goal with |- cost_of _ _ _ _ ?w => replace w with u by (field; exact Hf) end end. exact K.
    + apply Rmult_le_pos; [|apply sq_nonneg]. unfold Rdiv. apply Rmult_le_pos; [exact Hn|]. left. apply Rinv_0_lt_compat. pose proof (frob2_nonneg J). lra.
  - inversion Hp as [J' e' S EJ' Ee'|S]; subst; [unfold seeks in S; rewrite E in S; discriminate|]. cbn [fst snd]. exists 0, 0. split; [|lra].
    intros s. cbn [fst snd]. pose proof (cost_hard L d j (vscale s v) act W k E) as K.
    match goal with |- cost_of _ _ _ _ ?w => replace w with 0 by field end. exact K.
Qed.
Lemma best_of_ray b a : 0 <= a -> (forall s, 0 <= s <= 1 -> b + a / 2 <= s * b + s * s / 2 * a) -> b + a <= 0.
Proof.
  intros Ha H. destruct (Rle_dec (b + a) 0) as [|N]; [assumption|exfalso]. set (e := b + a) in *. assert (He : 0 < e) by lra.
  set (t := e / (a + e)). assert (Ht : 0 < t <= 1). { split; [apply Rdiv_lt_0_compat; lra|]. apply (Rmult_le_reg_r (a + e)); [lra|]. unfold t, Rdiv. rewrite Rmult_assoc, Rinv_l by lra. lra. }
  specialize (H (1 - t) ltac:(lra)). assert (K : t * (a + e) = e) by (unfold t; field; lra).
  assert (M : t * (b + a - t * a / 2) <= 0) by (unfold e in *; nra). assert (b + a - t * a / 2 <= 0). { destruct (Rle_dec (b + a - t * a / 2) 0); [assumption|]. assert (0 < t * (b + a - t * a / 2)) by (apply Rmult_lt_0_compat; lra). lra. }
  assert (t * a <= e) by nra. unfold e in *. lra.
Qed.
(** The key inequality. *)
Lemma best_progress v : best L d pd v -> admissible L d pd (vzero nv) -> Forall (well_shaped L nv d) (comps_of pd) -> Forall nonneg_weights (comps_of pd) ->
  exists ps, Forall2 (progress L d v) (comps_of pd) ps /\ vsum (map fst ps) + vsum (map snd ps) <= 0.
Proof.
  intros (Av & x & (xs & Fx & Ex) & Bx) A0 Hw Hn. pose proof (proj1 Av) as Lv.
  assert (G : forall js xs, Forall2 (fun j y => cost_of L d j v y) js xs -> Forall (well_shaped L nv d) js -> Forall nonneg_weights js ->
    exists ps cs, Forall2 (progress L d v) js ps /\ Forall2 (fun j c => ray j v c) js cs /\ map fst ps = map (fun c => snd (fst c)) cs /\ vsum (map snd ps) <= vsum (map snd cs) /\ 0 <= vsum (map snd ps)).
  { clear. intros js xs F. induction F as [|j y js xs Hj F IH]; intros Hw Hn; [exists [], []; repeat split; try constructor; cbn; lra|]. inversion Hw; subst. inversion Hn; subst.
    destruct IH as (ps & cs & F1 & F2 & E & Le & Nn); auto.
    assert (P : exists p, progress L d v j p /\ 0 <= snd p).
    { inversion Hj as [W lm k J e E1 EJ Ee|act W k J e E1 EJ Ee|g k J E1 EJ Hf|act W k E1]; subst.
      - eexists. split; [apply (pr_seeks L d v j J e); auto; unfold seeks; now rewrite E1|apply sq_nonneg].
      - eexists. split; [apply (pr_seeks L d v j J e); auto; unfold seeks; now rewrite E1|apply sq_nonneg].
      - exists (0, 0). split; [apply pr_other; unfold seeks; now rewrite E1|cbn; lra].
      - exists (0, 0). split; [apply pr_other; unfold seeks; now rewrite E1|cbn; lra]. }
    destruct P as (p & P & Pn). destruct (cost_ray j v y p) as (c0 & a & R & Ra); auto.
    exists (p :: ps), ((c0, fst p, a) :: cs). repeat split; try (constructor; assumption); cbn; [now rewrite E|lra|lra]. }
  destruct (G _ _ Fx Hw Hn) as (ps & cs & F1 & F2 & E & Le & Nn). exists ps. split; [exact F1|].
  assert (T : forall s, total_cost L d (comps_of pd) (vscale s v) (vsum (map (fun c => fst (fst c)) cs) + s * vsum (map (fun c => snd (fst c)) cs) + s * s / 2 * vsum (map snd cs))).
  { intros s. exists (map (fun c => fst (fst c) + s * snd (fst c) + s * s / 2 * snd c) cs). split.
    - clear - F2. induction F2; cbn; constructor; auto.
    - clear. induction cs as [|c cs IH]; cbn; [field|]. rewrite <- IH. field. }
  rewrite E. set (B := vsum (map (fun c => snd (fst c)) cs)) in *. set (A := vsum (map snd cs)) in *. set (C0 := vsum (map (fun c => fst (fst c)) cs)) in *.
  assert (X : x = C0 + B + A / 2).
  { assert (V : vscale 1 v = v). { unfold vscale. rewrite <- (map_id v) at 2. apply map_ext. intros. ring. }
    pose proof (T 1) as T1. rewrite V in T1. assert (T0 : total_cost L d (comps_of pd) v x) by (exists xs; auto). rewrite (total_cost_fun L d _ _ _ _ T0 T1). field. }
  assert (K : B + A <= 0); [|lra]. apply best_of_ray; [lra|]. intros s Hs. destruct (Bx (vscale s v) (admissible_scaled s v Hs Av A0)) as (y & Y & Ly). rewrite (total_cost_fun L d _ _ _ _ Y (T s)) in Ly. lra.
Qed.
End Here.

(** One step: the energy does not grow. *)
Lemma gained_uniform g j e : uniform g j -> List.length (j_gain j) = List.length e -> gained j e = vscale g e.
Proof.
  intros [H F]. unfold gained, vscale. rewrite (map_ext _ (fun x => x)) by exact F. rewrite map_id. revert e. induction H as [|x l <- H IH]; intros [|y e] E; cbn in *; try discriminate; [reflexivity|]. f_equal. apply IH. lia.
Qed.
Lemma step_energy L nv d d' dt v j p x g : well_shaped L nv d j -> progress L d v j p -> (seeks j = true -> advances L dt v d d' j) -> uniform g j -> 0 <= dt -> 0 <= g * dt <= 2 ->
  energy_of L d j x -> exists x', energy_of L d' j x' /\ x' - x <= dt * (fst p + snd p).
Proof.
  intros Hw Hp Ha Hu Hd Hg Hx. inversion Hx as [e g' S Ee Hu'|S]; subst.
  - inversion Hp as [J e' S' EJ Ee'|S']; subst; [|congruence]. rewrite Ee in Ee'. injection Ee' as <-. cbn [fst snd].
    destruct (Hw J e EJ Ee) as [MJ Lg]. specialize (Ha S e J Ee EJ). rewrite (gained_uniform g j e Hu Lg).
    eexists. split; [apply (en_seeks L d' j _ g S Ha Hu)|].
    assert (Lz : List.length e = List.length (vscale dt (mv J v))) by (rewrite vscale_length, mv_length; symmetry; apply MJ).
    rewrite mv_vadd by exact Lz. rewrite !mv_scaled. set (W := weight_of j) in *. rewrite dot_vscale_l. rewrite sq_vadd by (now rewrite vscale_length, !mv_length).
    replace (sq (vscale dt (mv W (mv J v)))) with (dt * dt * sq (mv W (mv J v))) by (unfold sq; rewrite dot_vscale_l, dot_vscale_r; ring). rewrite dot_vscale_r.
    assert (G : g' / 2 * sq (mv W e) = g / 2 * sq (mv W e)).
    { destruct Hu as [U _], Hu' as [U' _]. destruct (j_gain j) as [|y l] eqn:El.
      - destruct e; [|discriminate]. assert (Z : sq (mv W []) = 0) by (change (@nil R) with (vzero 0); rewrite mv_vzero_r; apply sq_vzero). rewrite Z. ring.
      - inversion U; inversion U'; subst. reflexivity. }
    rewrite G. set (A := dot (mv W e) (mv W (mv J v))). set (S2 := sq (mv W (mv J v))). assert (0 <= S2) by apply sq_nonneg. assert (0 <= dt * S2) by nra. nra.
  - inversion Hp as [J e' S' EJ Ee'|S']; subst; [congruence|]. cbn. exists 0. split; [now apply en_other|lra].
Qed.

Lemma energy_step L d d' pd dt v x : best L d pd v -> admissible L d pd (vzero (m_nv (jd_model pd))) -> Forall (well_shaped L (m_nv (jd_model pd)) d) (comps_of pd) -> Forall nonneg_weights (comps_of pd) ->
  0 <= dt -> Forall (fun j => seeks j = true -> advances L dt v d d' j /\ exists g, uniform g j /\ 0 <= g * dt <= 2) (comps_of pd) ->
  energy L d (comps_of pd) x -> exists x', energy L d' (comps_of pd) x' /\ x' <= x.
Proof.
  intros Hb H0 Hw Hn Hd Ha (xs & Fx & ->). destruct (best_progress L d pd v Hb H0 Hw Hn) as (ps & Fp & Hp).
  assert (G : exists ys, Forall2 (energy_of L d') (comps_of pd) ys /\ vsum ys - vsum xs <= dt * (vsum (map fst ps) + vsum (map snd ps))).
  { clear - Fx Fp Hw Hd Ha. revert xs ps Fx Fp. induction (comps_of pd) as [|j js IH]; intros xs ps Fx Fp; [inversion Fx; inversion Fp; subst; exists []; split; [constructor|cbn; lra]|].
    inversion Fx as [|? y ? xs' X1 X2]; subst. inversion Fp as [|? p ? ps' P1 P2]; subst. inversion Hw as [|? ? W1 W2]; subst. inversion Ha as [|? ? Hj Hjs]; subst. destruct (IH W2 Hjs _ _ X2 P2) as (ys & F & E).
    assert (K : exists y', energy_of L d' j y' /\ y' - y <= dt * (fst p + snd p)).
    { destruct (seeks j) eqn:S.
      - destruct (Hj eq_refl) as (A & g & U & Hg). apply (step_energy L _ d d' dt v j p y g W1 P1); auto.
      - inversion X1; subst; [congruence|]. inversion P1; subst; [congruence|]. exists 0. split; [now apply en_other|cbn; lra]. }
    destruct K as (y' & K1 & K2). exists (y' :: ys). split; [now constructor|]. cbn. lra. }
  destruct G as (ys & F & E). exists (vsum ys). split; [exists ys; auto|]. assert (dt * (vsum (map fst ps) + vsum (map snd ps)) <= 0) by nra. lra.
Qed.
