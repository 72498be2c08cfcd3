(** Joint limits and flows with a solver tolerance. *)
From Verif Require Import Base Lin LinFacts Mjx Typing Component Problem SpecComponent ComponentFacts ComponentFacts2 SpecJoint SpecHistory JointFacts BindFacts BindFacts3 SpecProblem SpecShape SpecFit SpecValue Rot Conf FrameJac Collide JaxComponents LocalIK SpecQP QPFacts QPThms QPThms2 QPThms3 QPThms4 SpecMotion MotionFacts MotionFacts2 SpecLoop LoopFacts FitThms FitFacts FitFacts3 SpecSolve SolveFacts SolveThms SpecDescent DescentFacts2 DescentThms2 SpecClosed SpecTol TolFacts.
Open Scope R_scope.

Lemma slack_by w lo hi x : List.length lo = List.length x -> List.length hi = List.length x -> (within_by w lo hi x <-> Forall (fun s => - w <= s) (slack lo hi x)).
Proof.
  intros H1 H2. unfold slack. rewrite Forall_app. unfold within_by, vle_by, vsub, vmap2. revert lo hi H1 H2. induction x as [|a x IH]; intros [|b lo] [|c hi] H1 H2; try discriminate; [repeat split; constructor|].
  injection H1 as H1. injection H2 as H2. specialize (IH lo hi H1 H2). cbn [combine map fst snd]. split.
  - intros [A B]. inversion A; subst. inversion B; subst. destruct IH as [IH _]. destruct IH; [now split|]. split; constructor; lra || assumption.
  - intros [A B]. inversion A; subst. inversion B; subst. destruct IH as [_ IH]. destruct IH; [now split|]. split; constructor; lra || assumption.
Qed.

Lemma program_near_limits L m os pi pd fm j lo hi eps dt (q v : nat -> vec) :
  tidy m os -> compiled_by os pi pd -> sound_lib L m ->
  (forall x, List.length x = m_nq m -> wf_data m (update L m x) /\ Forall (accepted L (update L m x)) (comps_of pd)) ->
  joint_barrier fm j -> In j (comps_of pd) -> has_limits j lo hi ->
  keeps_scalars L m -> (forall x, j_gain_fn j x = x) -> 0 <= dt -> Forall (fun a => 0 < a /\ a * dt <= 1) (j_gain j) ->
  near_loop eps L m pd dt q v ->
  (forall k i, (i < List.length (j_gain j))%nat -> let a := nth i (j_gain j) 0 in let r := (1 - a * dt) ^ k in
     r * nth i (slack lo hi (sel_pos m fm (q 0%nat))) 0 - (1 - r) * (eps / a) <= nth i (slack lo hi (sel_pos m fm (q k))) 0) /\
  (forall g, 0 < g -> Forall (fun a => g <= a) (j_gain j) -> 0 <= eps -> within_by (eps / g) lo hi (sel_pos m fm (q 0%nat)) -> forall k, within_by (eps / g) lo hi (sel_pos m fm (q k))).
Proof.
  intros Ht Hc HL HA Hj Hin Hl Hk Hid Hdt Hg Hs. destruct (program_components m os pi pd Ht Hc) as (Em & V1 & V2 & F).
  assert (Hm : j_model j = m) by (rewrite Forall_forall in F; apply (F j Hin)).
  pose proof Hs as [Q0 _].
  pose proof (joint_barrier_facts fm j Hj) as (_ & _ & _ & _ & _ & s & lo' & hi' & E). destruct Hl as (s' & qi & E'). rewrite E in E'. injection E' as -> -> -> <-.
  destruct (HA (q 0%nat) Q0) as [_ A0]. rewrite Forall_forall in A0. specialize (A0 j Hin). unfold accepted in A0. rewrite E in A0. destruct A0 as ((l & El & Ll) & (h & Eh & Lh)). injection El as _ <-. injection Eh as _ <-.
  unfold qidx_of in Ll, Lh. rewrite map_length in Ll, Lh. rewrite Hm in Ll, Lh. assert (HL' : has_limits j lo hi) by (exists s', (qidx_of (j_model j) fm); exact E).
  subst m. assert (Hg0 : Forall (fun a => 0 <= a /\ a * dt <= 1) (j_gain j)) by (eapply Forall_impl; [|exact Hg]; intros a [X Y]; split; [lra|exact Y]).
  destruct (near_limits L fm j lo hi pd eps dt q v Hj Hin Hm HL' Ll Lh Hk Hid Hdt Hg0 Hs) as (Lq & Lg & N).
  assert (N' : forall k i, (i < List.length (j_gain j))%nat -> let a := nth i (j_gain j) 0 in let r := (1 - a * dt) ^ k in
     r * nth i (slack lo hi (sel_pos (jd_model pd) fm (q 0%nat))) 0 - (1 - r) * (eps / a) <= nth i (slack lo hi (sel_pos (jd_model pd) fm (q k))) 0).
  { intros k i Hi a r. pose proof (N k i Hi) as K. cbv zeta in K. fold a in K. fold r in K. assert (Pa : 0 < a) by (rewrite Forall_forall in Hg; apply (Hg a), nth_In, Hi).
    rewrite errors_closed in K by lra. fold r in K. replace ((1 - r) * (eps / a)) with (eps * ((1 - r) / a)) by (field; lra). exact K. }
  split; [exact N'|]. intros g Pg Gg Pe W0 k. assert (Ls : forall k, List.length (sel_pos (jd_model pd) fm (q k)) = List.length (selected (jd_model pd) fm)) by (intros; apply map_length).
  apply slack_by in W0; [|rewrite Ls; assumption|rewrite Ls; assumption]. apply slack_by; [rewrite Ls; assumption|rewrite Ls; assumption|].
  assert (Lk : List.length (slack lo hi (sel_pos (jd_model pd) fm (q k))) = List.length (j_gain j)).
  { rewrite Lg. unfold slack, vsub, vmap2. rewrite !app_length, !map_length, !combine_length, !Ls. reflexivity. }
  apply Forall_nth. intros i d Hi. rewrite (nth_indep _ d 0) by exact Hi. rewrite Lk in Hi. specialize (N' k i Hi). cbv zeta in N'.
  set (a := nth i (j_gain j) 0) in *. set (r := (1 - a * dt) ^ k) in *.
  assert (Pa : 0 < a /\ a * dt <= 1) by (rewrite Forall_forall in Hg; apply (Hg a), nth_In, Hi). assert (Ga : g <= a) by (rewrite Forall_forall in Gg; apply (Gg a), nth_In, Hi).
  assert (Pr : 0 <= r <= 1). { unfold r. split; [apply pow_le; lra|]. assert (0 <= a * dt) by (apply Rmult_le_pos; lra). apply Rle_trans with (1 ^ k); [apply pow_incr; lra|rewrite pow1; lra]. }
  assert (S0 : - (eps / g) <= nth i (slack lo hi (sel_pos (jd_model pd) fm (q 0%nat))) 0) by (rewrite Forall_forall in W0; apply W0, nth_In; rewrite <- Lg; exact Hi).
  assert (Q1 : eps / a <= eps / g) by (unfold Rdiv; apply Rmult_le_compat_l; [exact Pe|]; apply Rinv_le_contravar; lra).
  assert (r * - (eps / g) <= r * nth i (slack lo hi (sel_pos (jd_model pd) fm (q 0%nat))) 0) by (apply Rmult_le_compat_l; lra).
  assert ((1 - r) * (eps / a) <= (1 - r) * (eps / g)) by (apply Rmult_le_compat_l; lra). lra.
Qed.

(** ** Continuous time *)
Section Along.
Context (L : lib) (nv : nat) (a b : R) (vs : R -> vec) (ds : R -> mjdata) (j : jaxc) (Hf : flows L a b vs ds j) (Hw : forall t, a < t < b -> well_shaped L nv (ds t) j).
Context (eps : R) (Hid : forall x, j_gain_fn j x = x).
Lemma shifted_growth (h h' : R -> R) K : 0 < K -> (forall t, a < t < b -> derivable_pt_lim h t (h' t)) -> (forall t, a < t < b -> - (K * h t) <= h' t + eps) ->
  forall s t, a < s -> s <= t -> t < b -> h s * exp (- (K * (t - s))) - (1 - exp (- (K * (t - s)))) * (eps / K) <= h t.
Proof.
  intros PK D H s t Hs Hst Ht. pose proof (growth a b (fun u => h u + eps / K) h' K) as G. cbv beta in G. assert (E : (h s + eps / K) * exp (- (K * (t - s))) <= h t + eps / K); [|lra].
  apply G; auto.
  - intros u Hu. replace (h' u) with (h' u + 0) by ring. apply (derivable_pt_lim_plus h (fun _ => eps / K)); [now apply D|apply derivable_pt_lim_const].
  - intros u Hu. specialize (H u Hu). replace (K * (h u + eps / K)) with (K * h u + eps) by (field; lra). lra.
Qed.
Lemma near_barrier_flow : (forall t, a < t < b -> cbf_by eps L (ds t) (vs t) j) -> Forall (fun g => 0 < g) (j_gain j) -> forall s t x y, a < s -> s <= t -> t < b -> call L j (ds s) = Ok x -> call L j (ds t) = Ok y ->
  List.length y = List.length x /\ forall i, (i < List.length x)%nat -> let g := nth i (j_gain j) 0 in let r := exp (- (g * (t - s))) in nth i x 0 * r - (1 - r) * (eps / g) <= nth i y 0.
Proof using Hf Hw Hid.
  intros Hc Hg s t x y Hs Hst Ht Ex Ey. destruct (flow_at L nv a b vs ds j Hf Hw) as (n & h & h' & G). destruct (G s ltac:(lra)) as (e0 & J0 & E0 & _ & L0 & Lg & N0), (G t ltac:(lra)) as (e1 & J1 & E1 & _ & L1 & _ & N1).
  rewrite Ex in E0. injection E0 as <-. rewrite Ey in E1. injection E1 as <-. split; [congruence|]. intros i Hi. rewrite L0 in Hi. destruct (N0 i Hi) as [-> _], (N1 i Hi) as [-> _]. cbv zeta.
  apply (shifted_growth (h i) (h' i)); auto; [rewrite Forall_forall in Hg; apply Hg, nth_In; lia|intros u Hu; destruct (G u Hu) as (? & ? & _ & _ & _ & _ & N); now apply N|].
  intros u Hu. destruct (G u Hu) as (e & J & Ee & EJ & Le & _ & N). destruct (N i Hi) as (M1 & M2 & M3). pose proof (nth_vle_by _ _ _ i (Hc u Hu J e EJ Ee) ltac:(rewrite vneg_length, gained_length by lia; lia)) as K.
  rewrite nth_vneg, nth_gained in K by (rewrite ?Le; auto). now rewrite Hid, M1, M2 in K.
Qed.
Lemma nth_close_by x y i : close_by eps x y -> (i < List.length x)%nat -> Rabs (nth i x 0 - nth i y 0) <= eps.
Proof. intros H. revert i. induction H as [|u w x y H _ IH]; intros [|i] Hi; cbn in *; try lia; [exact H|]. apply IH. lia. Qed.
Lemma near_hard_flow : (forall t, a < t < b -> holds_by eps L (ds t) (vs t) j) -> Forall (fun g => 0 < g) (j_gain j) -> forall s t x y, a < s -> s <= t -> t < b -> call L j (ds s) = Ok x -> call L j (ds t) = Ok y ->
  List.length y = List.length x /\ forall i, (i < List.length x)%nat -> let g := nth i (j_gain j) 0 in let r := exp (- (g * (t - s))) in Rabs (nth i y 0 - nth i x 0 * r) <= (1 - r) * (eps / g).
Proof using Hf Hw Hid.
  intros Hc Hg s t x y Hs Hst Ht Ex Ey. destruct (flow_at L nv a b vs ds j Hf Hw) as (n & h & h' & G). destruct (G s ltac:(lra)) as (e0 & J0 & E0 & _ & L0 & Lg & N0), (G t ltac:(lra)) as (e1 & J1 & E1 & _ & L1 & _ & N1).
  rewrite Ex in E0. injection E0 as <-. rewrite Ey in E1. injection E1 as <-. split; [congruence|]. intros i Hi. rewrite L0 in Hi. destruct (N0 i Hi) as [-> _], (N1 i Hi) as [-> _]. cbv zeta.
  assert (Pg : 0 < nth i (j_gain j) 0) by (rewrite Forall_forall in Hg; apply Hg, nth_In; lia).
  assert (H' : forall u, a < u < b -> derivable_pt_lim (h i) u (h' i u) /\ Rabs (h' i u + nth i (j_gain j) 0 * h i u) <= eps).
  { intros u Hu. destruct (G u Hu) as (e & J & Ee & EJ & Le & _ & N). destruct (N i Hi) as (M1 & M2 & M3). split; [exact M3|]. pose proof (Hc u Hu J e EJ Ee) as C. assert (Lm : (i < List.length (mv J (vs u)))%nat).
    { assert (Q : forall p q, close_by eps p q -> List.length p = List.length q) by (induction 1; cbn; congruence). apply Q in C. rewrite C, vneg_length, gained_length by lia. lia. }
    pose proof (nth_close_by _ _ i C Lm) as K. rewrite nth_vneg, nth_gained in K by (rewrite ?Le; auto). rewrite Hid, M1, M2 in K. replace (h' i u + nth i (j_gain j) 0 * h i u) with (h' i u - - (nth i (j_gain j) 0 * h i u)) by ring. exact K. }
  apply Rabs_le. split.
  - pose proof (shifted_growth (h i) (h' i) (nth i (j_gain j) 0) Pg) as K. assert (h i s * exp (- (nth i (j_gain j) 0 * (t - s))) - (1 - exp (- (nth i (j_gain j) 0 * (t - s)))) * (eps / nth i (j_gain j) 0) <= h i t); [|lra].
    apply K; auto; intros u Hu; destruct (H' u Hu) as [D A]; [exact D|]. pose proof (Rle_abs (- (h' i u + nth i (j_gain j) 0 * h i u))) as B. rewrite Rabs_Ropp in B. lra.
  - pose proof (shifted_growth (fun u => - h i u) (fun u => - h' i u) (nth i (j_gain j) 0) Pg) as K. cbv beta in K. assert (- h i s * exp (- (nth i (j_gain j) 0 * (t - s))) - (1 - exp (- (nth i (j_gain j) 0 * (t - s)))) * (eps / nth i (j_gain j) 0) <= - h i t); [|lra].
    apply K; auto; intros u Hu; destruct (H' u Hu) as [D A]; [now apply (derivable_pt_lim_opp (h i))|]. pose proof (Rle_abs (h' i u + nth i (j_gain j) 0 * h i u)) as B. lra.
Qed.
End Along.
Section Program.
Context (L : lib) (m : mjmodel) (os : list wop) (pi : nat) (pd : jdata) (Ht : tidy m os) (Hc : compiled_by os pi pd) (HL : sound_lib L m).
Context (a b : R) (vs : R -> vec) (ds : R -> mjdata) (Hd : forall t, a < t < b -> wf_data m (ds t) /\ Forall (accepted L (ds t)) (comps_of pd)).
Lemma program_near_flow eps j : In j (comps_of pd) -> flows L a b vs ds j -> (forall t, a < t < b -> nearly eps L (ds t) pd (vs t)) -> (forall x, j_gain_fn j x = x) -> Forall (fun g => 0 < g) (j_gain j) ->
  forall s t x y, a < s -> s <= t -> t < b -> call L j (ds s) = Ok x -> call L j (ds t) = Ok y -> forall i, (i < List.length x)%nat -> let g := nth i (j_gain j) 0 in let r := exp (- (g * (t - s))) in
  (is_barrier j = true -> nth i x 0 * r - (1 - r) * (eps / g) <= nth i y 0) /\ (is_hard j = true -> Rabs (nth i y 0 - nth i x 0 * r) <= (1 - r) * (eps / g)).
Proof.
  intros Hj Hf Ha Hid Hg s t x y Hs Hst Htb Ex Ey i Hi. assert (W : forall t, a < t < b -> well_shaped L (m_nv (jd_model pd)) (ds t) j) by (intros u H; pose proof (shaped_along L m os pi pd Ht Hc HL a b ds Hd u H) as F; rewrite Forall_forall in F; auto).
  cbv zeta. split; intros Hb.
  - apply (near_barrier_flow L _ a b vs ds j Hf W eps Hid) with (s := s) (t := t); auto. intros u Hu. destruct (Ha u Hu) as (_ & _ & _ & F). rewrite Forall_forall in F. now apply F.
  - apply (near_hard_flow L _ a b vs ds j Hf W eps Hid) with (s := s) (t := t); auto. intros u Hu. destruct (Ha u Hu) as (_ & _ & _ & F). rewrite Forall_forall in F. now apply F.
Qed.
End Program.
