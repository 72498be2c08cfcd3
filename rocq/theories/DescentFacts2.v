(** Continuous time. *)
From Verif Require Import Base Lin LinFacts Mjx Typing Component Problem JaxComponents LocalIK SpecQP QPFacts QPThms QPThms2 QPThms3 SpecSolve SolveFacts SpecDescent DescentFacts.
Open Scope R_scope.
Local Opaque dot.

Lemma dot_as_sum : forall (v r : vec), dot r v = vsum (map (fun i => nth i r 0 * nth i v 0) (seq 0 (List.length v))).
Proof.
  induction v as [|x v IH]; intros r; [now rewrite dot_nil_r|]. cbn [List.length seq map]. destruct r as [|y r].
  - rewrite dot_nil_l. cbn. rewrite <- seq_shift, map_map. cbn. clear. induction (seq 0 (List.length v)) as [|i l IH]; cbn; [ring|]. lra.
  - rewrite dot_cons, IH. cbn. rewrite <- seq_shift, map_map. reflexivity.
Qed.
Lemma lim_sum {A} (f : A -> R -> R) (f' : A -> R) t l : (forall i, In i l -> derivable_pt_lim (f i) t (f' i)) -> derivable_pt_lim (fun s => vsum (map (fun i => f i s) l)) t (vsum (map f' l)).
Proof.
  induction l as [|i l IH]; intros H; cbn; [apply derivable_pt_lim_const|]. apply (derivable_pt_lim_plus (f i) (fun s => vsum (map (fun i => f i s) l))); [apply H; now left|]. apply IH. intros. apply H. now right.
Qed.
Section Curve.
Context (a b : R) (n : nat) (e : R -> vec) (t : R) (e' : vec) (Ht : a < t < b) (Hl : forall s, a < s < b -> List.length (e s) = n) (Hl' : List.length e' = n)
  (He : forall i, (i < n)%nat -> derivable_pt_lim (fun s => nth i (e s) 0) t (nth i e' 0)).
Lemma lim_dot r : derivable_pt_lim (fun s => dot r (e s)) t (dot r e').
Proof.
  apply (derivable_pt_lim_locally_ext (fun s => vsum (map (fun i => nth i r 0 * nth i (e s) 0) (seq 0 n))) _ t a b _ Ht).
  - intros s Hs. now rewrite dot_as_sum, Hl.
  - rewrite (dot_as_sum e'), Hl'. apply (lim_sum (fun i s => nth i r 0 * nth i (e s) 0) (fun i => nth i r 0 * nth i e' 0)). intros i Hi. apply in_seq in Hi. apply (derivable_pt_lim_scal (fun s => nth i (e s) 0)). apply He. lia.
Qed.
Lemma sq_mv W u v : dot (mv W u) (mv W v) = vsum (map (fun r => dot r u * dot r v) W).
Proof. unfold mv. induction W as [|r W IH]; [reflexivity|]. cbn [map]. rewrite dot_cons, IH. reflexivity. Qed.
Lemma lim_sq W k : derivable_pt_lim (fun s => k / 2 * sq (mv W (e s))) t (k * dot (mv W (e t)) (mv W e')).
Proof.
  replace (k * dot (mv W (e t)) (mv W e')) with (k / 2 * vsum (map (fun r => dot r e' * dot r (e t) + dot r (e t) * dot r e') W)).
  - apply (derivable_pt_lim_ext (fun s => k / 2 * vsum (map (fun r => dot r (e s) * dot r (e s)) W))); [intros s; unfold sq; now rewrite sq_mv|].
    apply (derivable_pt_lim_scal (fun s => vsum (map (fun r => dot r (e s) * dot r (e s)) W))). apply (lim_sum (fun r s => dot r (e s) * dot r (e s)) (fun r => dot r e' * dot r (e t) + dot r (e t) * dot r e')).
    intros r _. apply (derivable_pt_lim_mult (fun s => dot r (e s)) (fun s => dot r (e s))); apply lim_dot.
  - rewrite sq_mv. clear. induction W as [|r W IH]; cbn; [field|]. rewrite Rmult_plus_distr_l, IH. field.
Qed.
End Curve.

(** A function whose derivative is never positive does not grow. *)
Lemma decreasing a b (f f' : R -> R) : (forall t, a < t < b -> derivable_pt_lim f t (f' t)) -> (forall t, a < t < b -> f' t <= 0) -> forall s t, a < s -> s <= t -> t < b -> f t <= f s.
Proof.
  intros D N s t Hs Hst Ht. destruct Hst as [Hst|<-]; [|lra]. destruct (MVT_cor2 f f' s t Hst) as (c & E & Hc); [intros c Hc; apply D; lra|]. specialize (N c ltac:(lra)). nra.
Qed.

Section Flow.
Context (L : lib) (pd : jdata) (a b : R) (vs : R -> vec) (ds : R -> mjdata).
Notation nv := (m_nv (jd_model pd)).
Context (Hb : forall t, a < t < b -> best L (ds t) pd (vs t)) (H0 : forall t, a < t < b -> admissible L (ds t) pd (vzero nv))
  (Hw : forall t, a < t < b -> Forall (well_shaped L nv (ds t)) (comps_of pd)) (Hn : Forall nonneg_weights (comps_of pd)).

Lemma energy_fun j x y d : (seeks j = true -> exists g, uniform g j) -> (forall e, call L j d = Ok e -> List.length (j_gain j) = List.length e) -> energy_of L d j x -> energy_of L d j y -> x = y.
Proof.
  intros _ Hl Hx Hy. inversion Hx as [e g S Ee U|S]; subst; inversion Hy as [e' g' S' Ee' U'|S']; subst; try congruence. rewrite Ee in Ee'. injection Ee' as <-. specialize (Hl e Ee).
  destruct U as [U _], U' as [U' _]. destruct (j_gain j) as [|y l] eqn:El.
  - destruct e; [|discriminate]. assert (Z : sq (mv (weight_of j) []) = 0) by (change (@nil R) with (vzero 0); rewrite mv_vzero_r; apply sq_vzero). rewrite Z. ring.
  - inversion U; inversion U'; subst. reflexivity.
Qed.
Lemma energy_curve j : In j (comps_of pd) -> (seeks j = true -> flows L a b vs ds j /\ exists g, uniform g j) ->
  exists (f f' : R -> R), forall t, a < t < b -> energy_of L (ds t) j (f t) /\ (forall y, energy_of L (ds t) j y -> y = f t) /\ derivable_pt_lim f t (f' t) /\
    forall p, progress L (ds t) (vs t) j p -> f' t = fst p.
Proof.
  intros Hj Hs. destruct (seeks j) eqn:S.
  - destruct (Hs eq_refl) as ((n & e & J & F) & g & U). exists (fun t => g / 2 * sq (mv (weight_of j) (e t))), (fun t => g * dot (mv (weight_of j) (e t)) (mv (weight_of j) (mv (J t) (vs t)))).
    intros t Ht. destruct (F t Ht) as (Ee & EJ & Le & De). pose proof (Hw t Ht) as W. rewrite Forall_forall in W. destruct (W j Hj _ _ EJ Ee) as [MJ Lg].
    split; [now apply en_seeks|]. split; [|split].
    + intros y Hy. apply (energy_fun j y _ (ds t)); auto; [eauto| |now apply en_seeks]. intros e2 E2. rewrite Ee in E2. injection E2 as <-. exact Lg.
    + apply (lim_sq a b n e t (mv (J t) (vs t)) Ht); auto; [intros s H; now destruct (F s H) as (_ & _ & X & _)|]. rewrite mv_length. rewrite <- Le. apply MJ.
    + intros p Hp. inversion Hp as [J' e' S' EJ' Ee'|S']; subst; [|congruence]. rewrite EJ in EJ'. injection EJ' as <-. rewrite Ee in Ee'. injection Ee' as <-. cbn. rewrite (gained_uniform g j _ U Lg), mv_scaled, dot_vscale_l. reflexivity.
  - exists (fun _ => 0), (fun _ => 0). intros t Ht. split; [now apply en_other|]. split; [|split].
    + intros y Hy. inversion Hy; congruence.
    + apply derivable_pt_lim_const.
    + intros p Hp. inversion Hp; subst; [congruence|reflexivity].
Qed.
Lemma energy_flow : Forall (fun j => seeks j = true -> flows L a b vs ds j /\ exists g, uniform g j) (comps_of pd) ->
  forall s t x y, a < s -> s <= t -> t < b -> energy L (ds s) (comps_of pd) x -> energy L (ds t) (comps_of pd) y -> y <= x.
Proof.
  intros Hf. assert (G : exists (F F' : R -> R), forall t, a < t < b -> (forall y, energy L (ds t) (comps_of pd) y -> y = F t) /\ derivable_pt_lim F t (F' t) /\
    forall ps, Forall2 (progress L (ds t) (vs t)) (comps_of pd) ps -> F' t = vsum (map fst ps)).
  { rewrite Forall_forall in Hf. assert (K : forall j, In j (comps_of pd) -> In j (comps_of pd)) by auto. revert K. generalize (comps_of pd) at 1 3 4 as js. induction js as [|j js IH]; intros K.
    - exists (fun _ => 0), (fun _ => 0). intros t Ht. split; [|split; [apply derivable_pt_lim_const|]].
      + intros y (xs & Fx & ->). inversion Fx. reflexivity.
      + intros ps Hp. inversion Hp. reflexivity.
    - destruct IH as (F & F' & H); [intros; apply K; now right|]. destruct (energy_curve j (K j (or_introl eq_refl)) (Hf j (K j (or_introl eq_refl)))) as (f & f' & Hj).
      exists (fun t => f t + F t), (fun t => f' t + F' t). intros t Ht. destruct (H t Ht) as (A & B & C), (Hj t Ht) as (_ & A1 & B1 & C1). split; [|split].
      + intros y (xs & Fx & ->). inversion Fx as [|? x0 ? xs0 X1 X2]; subst. cbn. rewrite (A1 _ X1). rewrite <- (A (vsum xs0)); [reflexivity|exists xs0; auto].
      + now apply (derivable_pt_lim_plus f F).
      + intros ps Hp. inversion Hp as [|? p ? ps0 P1 P2]; subst. cbn. now rewrite (C1 _ P1), (C _ P2). }
  destruct G as (F & F' & G). intros s t x y Hs Hst Ht Hx Hy. rewrite (proj1 (G s ltac:(lra)) _ Hx), (proj1 (G t ltac:(lra)) _ Hy).
  apply (decreasing a b F F'); auto; [intros u Hu; now apply G|]. intros u Hu. destruct (best_progress L (ds u) pd (vs u) (Hb u Hu) (H0 u Hu) (Hw u Hu) Hn) as (ps & Fp & Hp). destruct (G u Hu) as (_ & _ & C). rewrite (C ps Fp).
  assert (0 <= vsum (map snd ps)); [|lra]. clear - Fp. induction Fp as [|j p js ps Hj _ IH]; cbn; [lra|]. assert (0 <= snd p); [|lra]. inversion Hj; subst; cbn; [apply sq_nonneg|lra].
Qed.
End Flow.

(** ** Barriers in continuous time *)
Lemma lim_lin K u : derivable_pt_lim (fun x => K * x) u K.
Proof. pose proof (derivable_pt_lim_scal (fun x => x) K u 1 (derivable_pt_lim_id u)) as H. now rewrite Rmult_1_r in H. Qed.
(** exp (K t) h is non-decreasing where h' >= - K h. *)
Lemma growth a b (h h' : R -> R) K : (forall t, a < t < b -> derivable_pt_lim h t (h' t)) -> (forall t, a < t < b -> - (K * h t) <= h' t) ->
  forall s t, a < s -> s <= t -> t < b -> h s * exp (- (K * (t - s))) <= h t.
Proof.
  intros D H s t Hs Hst Ht. set (f := fun u => - (h u * exp (K * u))). set (f' := fun u => - (h' u * exp (K * u) + h u * (exp (K * u) * K))).
  assert (E : forall u, derivable_pt_lim (fun x => exp (K * x)) u (exp (K * u) * K)).
  { intros u. apply (derivable_pt_lim_comp (fun x => K * x) exp); [|apply derivable_pt_lim_exp]. apply lim_lin. }
  assert (M : f t <= f s).
  { apply (decreasing a b f f'); auto.
    - intros u Hu. apply (derivable_pt_lim_opp (fun x => h x * exp (K * x))). apply (derivable_pt_lim_mult h (fun x => exp (K * x))); auto.
    - intros u Hu. unfold f'. specialize (H u Hu). pose proof (exp_pos (K * u)). nra. }
  unfold f in M. replace (- (K * (t - s))) with (K * s + - (K * t)) by ring. rewrite exp_plus, exp_Ropp. pose proof (exp_pos (K * t)). apply (Rmult_le_reg_r (exp (K * t))); [assumption|]. replace (h s * (exp (K * s) * / exp (K * t)) * exp (K * t)) with (h s * exp (K * s)) by (field; lra). lra.
Qed.
(** Nagumo-type comparison: below zero the derivative pushes back at least linearly in the depth. *)
Lemma comparison a b (h h' : R -> R) K : (forall t, a < t < b -> derivable_pt_lim h t (h' t)) -> (forall t, a < t < b -> h t < 0 -> K * h t <= h' t) -> 0 <= K ->
  forall s t, a < s -> s <= t -> t < b -> 0 <= h s -> 0 <= h t.
Proof.
  intros D H HK s t Hs Hst Ht H0. destruct (Rle_dec 0 (h t)) as [|N]; [assumption|exfalso]. assert (Nt : h t < 0) by lra. clear N.
  (* the last zero before t *)
  assert (C : forall u, a < u < b -> continuity_pt h u) by (intros u Hu; apply derivable_continuous_pt; exists (h' u); now apply D).
  assert (Lz : exists z, s <= z /\ z < t /\ h z = 0 /\ forall u, z < u <= t -> h u < 0).
  { set (P := fun u => s <= u <= t /\ 0 <= h u). assert (B : bound P) by (exists t; intros u (Hu & _); lra). assert (NE : exists u, P u) by (exists s; split; [lra|exact H0]).
    destruct (completeness P B NE) as (z & Zu & Zl). assert (Hz : s <= z <= t) by (split; [apply Zu; split; [lra|exact H0]|apply Zl; intros u (Hu & _); lra]).
    assert (After : forall u, z < u <= t -> h u < 0). { intros u Hu. destruct (Rlt_dec (h u) 0); [assumption|]. exfalso. assert (P u) by (split; lra). specialize (Zu u H1). lra. }
    assert (Z0 : 0 <= h z).
    { destruct (Rle_dec 0 (h z)) as [|N]; [assumption|exfalso]. destruct (C z ltac:(lra) (- h z) ltac:(lra)) as (del & Hd & Hc). assert (U : is_upper_bound P (z - del)).
      { intros u (Hu1 & Hu2). destruct (Rle_dec u (z - del)) as [|Nu]; [assumption|exfalso]. assert (u <= z) by (apply Zu; split; assumption). destruct (Req_dec u z) as [->|Ne]; [lra|].
        specialize (Hc u). assert (D_x no_cond z u /\ Rabs (u - z) < del) as X by (split; [split; [exact I|lra]|rewrite Rabs_left1; lra]). specialize (Hc X). cbn in Hc. unfold R_dist in Hc. apply Rabs_def2 in Hc. lra. }
      specialize (Zl _ U). lra. }
    assert (Hzt : z < t) by (destruct (Req_dec z t) as [->|]; lra). exists z. split; [lra|]. split; [exact Hzt|]. split; [|exact After].
    destruct (Req_dec (h z) 0) as [|Nz]; [assumption|exfalso]. destruct (C z ltac:(lra) (h z) ltac:(lra)) as (del & Hd & Hc). set (u := z + Rmin (del / 2) (t - z)). assert (Hu : z < u <= t /\ Rabs (u - z) < del).
    { unfold u. pose proof (Rmin_l (del / 2) (t - z)). pose proof (Rmin_r (del / 2) (t - z)). assert (0 < Rmin (del / 2) (t - z)) by (apply Rmin_pos; lra). split; [lra|]. rewrite Rabs_pos_eq; lra. }
    specialize (Hc u). assert (D_x no_cond z u /\ Rabs (u - z) < del) as X by (split; [split; [exact I|lra]|tauto]). specialize (Hc X). cbn in Hc. unfold R_dist in Hc. apply Rabs_def2 in Hc. specialize (After u (proj1 Hu)). lra. }
  destruct Lz as (z & Hz1 & Hz2 & Hz0 & Hneg).
  (* on (z, t]: h' >= K h, so h exp (-K u) does not decrease; its limit at z is 0 *)
  assert (G : forall r, z < r <= t -> h r * exp (K * (t - r)) <= h t).
  { intros r Hr. pose proof (growth z b h h' (- K)) as GR.
    assert (X : forall e, 0 < e -> t < b - 0 -> h r * exp (- (- K * (t - r))) <= h t); [|specialize (X 1 ltac:(lra) ltac:(lra)); replace (K * (t - r)) with (- (- K * (t - r))) by ring; exact X].
    intros _ _ _. destruct (proj2 Hr) as [Hrt|<-]; [|replace (- (- K * (r - r))) with 0 by ring; rewrite exp_0; lra].
    set (f := fun u => - (h u * exp (- K * u))). set (f' := fun u => - (h' u * exp (- K * u) + h u * (exp (- K * u) * - K))).
    assert (E : forall u, derivable_pt_lim (fun x => exp (- K * x)) u (exp (- K * u) * - K)).
    { intros u. apply (derivable_pt_lim_comp (fun x => - K * x) exp); [|apply derivable_pt_lim_exp]. apply lim_lin. }
    destruct (MVT_cor2 f f' r t Hrt) as (c & Ec & Hc).
    { intros u Hu. apply (derivable_pt_lim_opp (fun x => h x * exp (- K * x))). apply (derivable_pt_lim_mult h (fun x => exp (- K * x))); auto. apply D. lra. }
    assert (Fc : f' c <= 0). { unfold f'. specialize (H c ltac:(lra) (Hneg c ltac:(lra))). pose proof (exp_pos (- K * c)). nra. }
    assert (M : f t <= f r) by nra. unfold f in M. replace (- (- K * (t - r))) with (- K * r + - (- K * t)) by ring. rewrite exp_plus, exp_Ropp. pose proof (exp_pos (- K * t)). apply (Rmult_le_reg_r (exp (- K * t))); [assumption|]. replace (h r * (exp (- K * r) * / exp (- K * t)) * exp (- K * t)) with (h r * exp (- K * r)) by (field; lra). lra. }
  (* continuity at z contradicts h t < 0 *)
  set (e := exp (K * (t - z))). assert (He : 0 < e) by apply exp_pos. destruct (C z ltac:(lra) (- h t / e)) as (del & Hd & Hc); [apply Rdiv_lt_0_compat; lra|].
  set (u := z + Rmin (del / 2) (t - z)). assert (Hu : z < u <= t /\ Rabs (u - z) < del).
  { unfold u. pose proof (Rmin_l (del / 2) (t - z)). pose proof (Rmin_r (del / 2) (t - z)). assert (0 < Rmin (del / 2) (t - z)) by (apply Rmin_pos; lra). split; [lra|]. rewrite Rabs_pos_eq; lra. }
  specialize (Hc u). assert (D_x no_cond z u /\ Rabs (u - z) < del) as X by (split; [split; [exact I|lra]|tauto]). specialize (Hc X). cbn in Hc. unfold R_dist in Hc. rewrite Hz0 in Hc. apply Rabs_def2 in Hc. destruct Hc as [_ Hc].
  assert (K1 : - h u * e < - h t). { apply (Rmult_lt_reg_r (/ e)); [now apply Rinv_0_lt_compat|]. rewrite Rmult_assoc, Rinv_r by lra. unfold Rdiv in Hc. lra. }
  specialize (G u (proj1 Hu)). assert (exp (K * (t - u)) <= e). { unfold e. destruct (Req_dec (K * (t - u)) (K * (t - z))) as [->|Ne]; [lra|]. left. apply exp_increasing. destruct Hu as [Hu _]. assert (K * (t - u) <= K * (t - z)) by (apply Rmult_le_compat_l; lra). lra. }
  specialize (Hneg u (proj1 Hu)). pose proof (exp_pos (K * (t - u))). nra.
Qed.
