(** Exact forms of C46 and C64. *)
From Verif Require Import Base Lin LinFacts Mjx Typing Component Problem SpecComponent SpecShape SpecValue SpecProblem SpecQP SpecConf Rot Conf JaxComponents LocalIK ConfFacts ConfThms QPFacts QPThms2 QPThms5 SpecExact.
Open Scope R_scope.

(** ** C46 *)
Lemma vle_refl v : vle v v. Proof. induction v; constructor; [lra|assumption]. Qed.
Lemma vle_antisym a b : vle a b -> vle b a -> a = b.
Proof. intros H. induction H as [|x y a b H _ IH]; intros G; [reflexivity|]. inversion G; subst. f_equal; [lra|auto]. Qed.
Lemma vneg_invol v : vneg (vneg v) = v.
Proof. apply vneg_vneg. Qed.
Lemma vle_flip a b : vle a b <-> vle (vneg b) (vneg a).
Proof. symmetry. apply vle_neg. Qed.
Lemma feasible_box L sm pd d Q : m_nv sm = m_nv (jd_model pd) -> assemble L sm pd d = Ok Q -> Forall (well_shaped L (m_nv (jd_model pd)) d) (comps_of pd) ->
  List.length (jd_vmin pd) = m_nv (jd_model pd) -> List.length (jd_vmax pd) = m_nv (jd_model pd) -> filter is_barrier (comps_of pd) = [] ->
  forall v, List.length v = m_nv (jd_model pd) -> (satisfies_ineq (qp_G Q) (qp_h Q) v <-> vle (vneg (jd_vmax pd)) v /\ vle v (vneg (jd_vmin pd))).
Proof.
  intros Hnv HQ Hs L1 L2 Hb v Hv. rewrite (ineq_iff L sm pd d Q Hnv HQ Hs v Hv L1 L2), Hb. split.
  - intros (A & B & _). split; [|exact A]. apply vle_flip. now rewrite vneg_invol.
  - intros (A & B). split; [exact B|]. split; [|constructor]. apply vle_flip in A. now rewrite vneg_invol in A.
Qed.
Lemma enforced_iff L sm pd d Q : m_nv sm = m_nv (jd_model pd) -> assemble L sm pd d = Ok Q -> Forall (well_shaped L (m_nv (jd_model pd)) d) (comps_of pd) ->
  List.length (jd_vmin pd) = m_nv (jd_model pd) -> List.length (jd_vmax pd) = m_nv (jd_model pd) -> filter is_barrier (comps_of pd) = [] -> vle (jd_vmin pd) (jd_vmax pd) ->
  ((forall v, List.length v = m_nv (jd_model pd) -> (satisfies_ineq (qp_G Q) (qp_h Q) v <-> vle (jd_vmin pd) v /\ vle v (jd_vmax pd))) <-> jd_vmax pd = vneg (jd_vmin pd)).
Proof.
  intros Hnv HQ Hs L1 L2 Hb Hle. pose proof (feasible_box L sm pd d Q Hnv HQ Hs L1 L2 Hb) as F. split.
  - intros H. apply vle_antisym.
    + assert (X : satisfies_ineq (qp_G Q) (qp_h Q) (jd_vmax pd)) by (apply H; [exact L2|split; [exact Hle|apply vle_refl]]). now apply F in X.
    + assert (X : satisfies_ineq (qp_G Q) (qp_h Q) (vneg (jd_vmin pd))).
      { apply F; [now rewrite vneg_length|]. split; [|apply vle_refl]. now apply vle_flip in Hle. }
      apply H in X; [now destruct X|now rewrite vneg_length].
  - intros E v Hv. rewrite (F v Hv), E, vneg_invol. reflexivity.
Qed.

(** ** C64 *)
Lemma v3_eq a b : vx a = vx b -> vy a = vy b -> vz a = vz b -> a = b.
Proof. destruct a as [a1 a2 a3], b as [b1 b2 b3]. cbn. now intros -> -> ->. Qed.
Lemma q_app_coords w x y z a b c : q_app (mkQ w x y z) (mkV a b c) =
  mkV ((w * w + x * x - y * y - z * z) * a + 2 * (x * y - w * z) * b + 2 * (x * z + w * y) * c)
      (2 * (x * y + w * z) * a + (w * w - x * x + y * y - z * z) * b + 2 * (y * z - w * x) * c)
      (2 * (x * z - w * y) * a + 2 * (y * z + w * x) * b + (w * w - x * x - y * y + z * z) * c).
Proof. apply v3_eq; cbn; ring. Qed.
Lemma q_app_plus q a b : q_app q (v3_add a b) = v3_add (q_app q a) (q_app q b).
Proof. destruct q as [w x y z], a as [a1 a2 a3], b as [b1 b2 b3]. unfold v3_add at 1. cbn [vx vy vz]. rewrite !q_app_coords. apply v3_eq; cbn [v3_add vx vy vz]; ring. Qed.
Lemma acts_mul a b x : acts (se3_mul a b) x = acts a (acts b x).
Proof.
  unfold acts, se3_mul. cbn [s_rot s_pos]. rewrite q_app_mul, q_app_plus. apply v3_eq; cbn [v3_add vx vy vz]; ring.
Qed.
Lemma acts_onto T y : unit_pose T -> exists x, acts T x = y.
Proof.
  intros H. unfold unit_pose in H. exists (q_app (q_conj (s_rot T)) (v3_sub y (s_pos T))). unfold acts. rewrite <- q_app_mul, q_mul_conj_r, q_app_one by exact H.
  apply v3_eq; cbn [v3_add v3_sub vx vy vz]; ring.
Qed.
Lemma acts_inj T x y : unit_pose T -> acts T x = acts T y -> x = y.
Proof.
  intros H E. unfold unit_pose in H. unfold acts in E. assert (E' : q_app (s_rot T) x = q_app (s_rot T) y).
  { pose proof (f_equal vx E) as E1. pose proof (f_equal vy E) as E2. pose proof (f_equal vz E) as E3. unfold v3_add in E1, E2, E3. cbn [vx vy vz] in E1, E2, E3. apply v3_eq; [revert E1|revert E2|revert E3]; generalize (q_app (s_rot T) x) (q_app (s_rot T) y); intros; lra. }
  apply (f_equal (q_app (q_conj (s_rot T)))) in E'. now rewrite <- !q_app_mul, !q_mul_conj_l, !q_app_one in E' by exact H.
Qed.
Lemma still_pose S : unit_pose S -> (forall x, acts S x = x) -> q_im (s_rot S) = v3_zero /\ s_pos S = v3_zero.
Proof.
  destruct S as [[w x y z] [a b c]]. unfold unit_pose, acts, q_norm2. cbn [s_rot s_pos qw qx qy qz]. intros N H.
  pose proof (H (mkV 0 0 0)) as H0. pose proof (H (mkV 1 0 0)) as H1. pose proof (H (mkV 0 1 0)) as H2. clear H. rewrite q_app_coords in H0, H1, H2. unfold v3_add in *. cbn [vx vy vz] in *.
  injection H0 as A1 A2 A3. injection H1 as B1 _ _. injection H2 as _ C2 _. assert (a = 0) by lra. assert (b = 0) by lra. assert (c = 0) by lra. subst a b c.
  assert (y = 0) by nra. assert (z = 0) by nra. assert (x = 0) by nra. subst. now split.
Qed.
Lemma self_inverse_iff T : unit_pose T -> (self_inverse T <-> flips T).
Proof.
  intros N. split.
  - intros H. assert (U : unit_pose (se3_mul T T)).
    { destruct T as [[w x y z] p]. unfold unit_pose, q_norm2, se3_mul, q_mul in *. cbn [s_rot qw qx qy qz] in *. 
      replace 1 with ((w * w + x * x + y * y + z * z) * (w * w + x * x + y * y + z * z)) by (rewrite N; ring). ring. }
    destruct (still_pose (se3_mul T T) U) as [Q P]. { intros x. rewrite acts_mul. apply H. }
    destruct T as [[w x y z] [a b c]]. unfold unit_pose, q_norm2, flips, se3_mul in *. cbn [s_rot s_pos qw qx qy qz] in *. rewrite q_app_coords in P.
    unfold v3_add, v3_zero, q_im, q_mul, v3_dot in *. cbn [qw qx qy qz vx vy vz] in *. injection Q as Q1 Q2 Q3. injection P as P1 P2 P3.
    destruct (Req_dec w 0) as [->|Hw].
    + right. split; [reflexivity|]. assert (E : (x * x + y * y + z * z) * (x * a + y * b + z * c) + (x * a + y * b + z * c) = 0).
      { transitivity (x * (((0 * 0 + x * x - y * y - z * z) * a + 2 * (x * y - 0 * z) * b + 2 * (x * z + 0 * y) * c) + a) +
          y * ((2 * (x * y + 0 * z) * a + (0 * 0 - x * x + y * y - z * z) * b + 2 * (y * z - 0 * x) * c) + b) +
          z * ((2 * (x * z - 0 * y) * a + 2 * (y * z + 0 * x) * b + (0 * 0 - x * x - y * y + z * z) * c) + c)); [ring|]. rewrite P1, P2, P3. ring. }
      replace (x * x + y * y + z * z) with 1 in E by lra. lra.
    + left. assert (K : forall u, w * u = 0 -> u = 0) by (intros u Hu; apply Rmult_integral in Hu as [|]; [contradiction|assumption]).
      assert (x = 0) by (apply K; lra). assert (y = 0) by (apply K; lra). assert (z = 0) by (apply K; lra). subst. split; [reflexivity|].
      assert (w * w = 1) by lra. assert (a = 0) by nra. assert (b = 0) by nra. assert (c = 0) by nra. now subst.
  - destruct T as [[w x y z] [a b c]]. unfold unit_pose, q_norm2, flips, self_inverse, acts in *. cbn [s_rot s_pos qw qx qy qz] in *.
    unfold v3_zero, q_im, v3_dot. cbn [qw qx qy qz vx vy vz]. intros [[Hq Hp]|[Hw Hd]] [u v t].
    + injection Hq as -> -> ->. injection Hp as -> -> ->. assert (W : w * w = 1) by lra. rewrite !q_app_coords. unfold v3_add. cbn [vx vy vz]. rewrite q_app_coords.
      apply v3_eq; cbn [vx vy vz]; ring_simplify; replace (w ^ 4) with ((w * w) * (w * w)) by ring; rewrite W; ring.
    + subst w. assert (W : x * x + y * y + z * z = 1) by lra. rewrite q_app_plus, <- q_app_mul.
      replace (q_mul (mkQ 0 x y z) (mkQ 0 x y z)) with (mkQ (-1) 0 0 0).
      2:{ unfold q_mul. cbn [qw qx qy qz]. f_equal; [|ring|ring|ring]. replace (-1) with (- (x * x + y * y + z * z)) by (rewrite W; ring). ring. }
      rewrite !q_app_coords. apply v3_eq; cbn [v3_add vx vy vz].
      * replace ((0 * 0 + x * x - y * y - z * z) * a + 2 * (x * y - 0 * z) * b + 2 * (x * z + 0 * y) * c) with (2 * x * (x * a + y * b + z * c) - (x * x + y * y + z * z) * a) by ring. rewrite Hd, W. ring.
      * replace (2 * (x * y + 0 * z) * a + (0 * 0 - x * x + y * y - z * z) * b + 2 * (y * z - 0 * x) * c) with (2 * y * (x * a + y * b + z * c) - (x * x + y * y + z * z) * b) by ring. rewrite Hd, W. ring.
      * replace (2 * (x * z - 0 * y) * a + 2 * (y * z + 0 * x) * b + (0 * 0 - x * x - y * y + z * z) * c) with (2 * z * (x * a + y * b + z * c) - (x * x + y * y + z * z) * c) by ring. rewrite Hd, W. ring.
Qed.
Lemma transform_exact m d a b c Ta Tb Tc : wf_model m -> wf_data m d -> (a < m_nbody m)%nat -> (b < m_nbody m)%nat -> (c < m_nbody m)%nat ->
  pose_of_body d a Ta -> pose_of_body d b Tb -> pose_of_body d c Tc -> unit_pose Ta -> unit_pose Tb -> unit_pose Tc ->
  exists Tab Tbc Tac Taa, get_transform d (Z.of_nat a) (Z.of_nat b) = Ok Tab /\ get_transform d (Z.of_nat b) (Z.of_nat c) = Ok Tbc /\ get_transform d (Z.of_nat a) (Z.of_nat c) = Ok Tac /\ get_transform d (Z.of_nat a) (Z.of_nat a) = Ok Taa /\
  (changes_frame Ta Tb Tab <-> flips Tb) /\ ((forall x, acts Taa x = x) <-> flips Ta) /\ ((forall x, acts Tbc (acts Tab x) = acts Tac x) <-> flips Tb).
Proof.
  intros Hm Hd Ha Hb Hc Pa Pb Pc Ua Ub Uc.
  assert (U : forall i T T', pose_of_body d i T -> pose_of_body d i T' -> T = T').
  { intros i [[w x y z] [p q r]] [[w' x' y' z'] [p' q' r']] [A B] [A' B']. cbn in *. rewrite A in A'. rewrite B in B'. unfold q_list, v3_list in *. cbn in *. congruence. }
  assert (G : forall i k Ti Tk, (i < m_nbody m)%nat -> (k < m_nbody m)%nat -> pose_of_body d i Ti -> pose_of_body d k Tk -> get_transform d (Z.of_nat i) (Z.of_nat k) = Ok (se3_mul Tk Ti)).
  { intros i k Ti Tk Hi Hk Pi Pk. destruct (transform_facts m d i k Hm Hd Hi Hk) as (T & T' & P & P' & E & _). now rewrite (U i Ti T Pi P), (U k Tk T' Pk P'). }
  exists (se3_mul Tb Ta), (se3_mul Tc Tb), (se3_mul Tc Ta), (se3_mul Ta Ta). split; [now apply G|]. split; [now apply G|]. split; [now apply G|]. split; [now apply G|].
  rewrite <- (self_inverse_iff Tb Ub), <- (self_inverse_iff Ta Ua). split; [|split].
  - unfold changes_frame, self_inverse. split.
    + intros H x. destruct (acts_onto Ta x Ua) as [y <-]. specialize (H y). now rewrite acts_mul in H.
    + intros H x. now rewrite acts_mul.
  - unfold self_inverse. split; intros H x; specialize (H x); now rewrite acts_mul in *.
  - unfold self_inverse. split.
    + intros H x. destruct (acts_onto Ta x Ua) as [y <-]. specialize (H y). rewrite !acts_mul in H. now apply acts_inj in H.
    + intros H x. now rewrite !acts_mul, H.
Qed.
