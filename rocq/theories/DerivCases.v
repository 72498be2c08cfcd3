(** Concrete mechanisms with one joint, for the theorems on derivatives. *)
From Coq Require Import Lia.
From Verif Require Import Base Lin Mjx Typing Component SpecComponent SpecJoint SpecHistory SpecMotion SpecConf Rot Conf FrameJac JaxComponents Witness SpecTree SpecShape SpecValue SpecDeriv.
From Verif Require Import LinFacts CompThms2 ConfCases ValueCases MotionFacts2 ConfFacts3 ConfFacts4 FitFacts DerivFacts DerivThms DerivThms2.
Open Scope R_scope.

Lemma grad_div F G x g h : List.length g = List.length h -> G x <> 0 -> has_gradient F x g -> has_gradient G x h ->
  has_gradient (fun y => F y / G y) x (vadd (vscale (/ G x) g) (vscale (F x) (vscale (- / (G x * G x)) h))).
Proof. intros Hl Hn HF HG. apply (grad_mul F (fun y => / G y)); [now rewrite vscale_length|exact HF|now apply grad_inv]. Qed.
Ltac grad_len := repeat (rewrite ?vadd_length, ?vsub_length, ?vscale_length, ?vneg_length, ?unit_row_length, ?vzero_length); try reflexivity; try assumption; try congruence.
Ltac grad :=
  lazymatch goal with
  | |- has_gradient (fun y => nth ?i y 0) _ _ => apply grad_coord; cbn; lia
  | |- has_gradient (fun y => _ + _) _ _ => first [apply grad_const | eapply grad_add; [|grad|grad]; grad_len]
  | |- has_gradient (fun y => _ - _) _ _ => first [apply grad_const | eapply grad_sub; [|grad|grad]; grad_len]
  | |- has_gradient (fun y => _ / _) _ _ => first [apply grad_const | eapply grad_div; [| |grad|grad]; grad_len]
  | |- has_gradient (fun y => _ * _) _ _ => first [apply grad_const | eapply grad_mul; [|grad|grad]; grad_len]
  | |- has_gradient (fun y => - _) _ _ => first [apply grad_const | eapply grad_opp; grad]
  | |- has_gradient (fun y => cos _) _ _ => first [apply grad_const | eapply (grad_comp cos); [grad|apply derivable_pt_lim_cos]]
  | |- has_gradient (fun y => sin _) _ _ => first [apply grad_const | eapply (grad_comp sin); [grad|apply derivable_pt_lim_sin]]
  | |- _ => apply grad_const
  end.

Lemma Ok_inj {A} (a b : A) : @Ok A a = Ok b -> a = b. Proof. congruence. Qed.
(** One body on one joint: [pos] and [rot] give its pose as a function of qpos; the joint
    axis is vertical through [anchor].  [l_com_pos] fills the centre of mass (the body's
    position) and the motion axes, as mjx.com_pos does. *)
Definition rig_kin (pos : list R -> v3) (rot : list R -> m3) (d : mjdata) : mjdata :=
  let p := v3_list (pos (d_qpos d)) in let r := m3_list (rot (d_qpos d)) in
  {| d_qpos := d_qpos d; d_xpos := [[0; 0; 0]; p]; d_xmat := [id9; r]; d_xquat := [[1; 0; 0; 0]; q_list (from_matrix (rot (d_qpos d)))]; d_xipos := [[0; 0; 0]; p];
     d_geom_xpos := [p]; d_geom_xmat := [r]; d_site_xpos := []; d_site_xmat := []; d_subtree_com := d_subtree_com d;
     d_cdof := d_cdof d; d_efc_pos := []; d_efc_is_equality := []; d_efc_J := [] |}.
Definition rig_com (pos : list R -> v3) (anchor : v3) (m : mjmodel) (d : mjdata) : mjdata :=
  let p := pos (d_qpos d) in
  {| d_qpos := d_qpos d; d_xpos := d_xpos d; d_xmat := d_xmat d; d_xquat := d_xquat d; d_xipos := d_xipos d;
     d_geom_xpos := d_geom_xpos d; d_geom_xmat := d_geom_xmat d; d_site_xpos := []; d_site_xmat := []; d_subtree_com := [v3_list p; v3_list p];
     d_cdof := repeat ([0; 0; 1] ++ v3_list (cross (mkV 0 0 1) (v3_sub p anchor))) (m_nv m); d_efc_pos := []; d_efc_is_equality := []; d_efc_J := [] |}.
Definition blank (m : mjmodel) : mjdata :=
  {| d_qpos := vzero (m_nq m); d_xpos := repeat (vzero 3) 2; d_xmat := repeat (vzero 9) 2; d_xquat := repeat (vzero 4) 2; d_xipos := repeat (vzero 3) 2;
     d_geom_xpos := [vzero 3]; d_geom_xmat := [vzero 9]; d_site_xpos := []; d_site_xmat := []; d_subtree_com := repeat (vzero 3) 2;
     d_cdof := repeat (vzero 6) (m_nv m); d_efc_pos := []; d_efc_is_equality := []; d_efc_J := [] |}.
Definition rig D pos rot anchor : lib :=
  mkL (1 / 1000) blank (fun _ d => rig_kin pos rot d) (rig_com pos anchor) (fun _ d => d) D (fun _ => None).
Lemma rig_positions D pos rot anchor m : keeps_positions (rig D pos rot anchor) m.
Proof. intros y. split; [reflexivity|]. split; reflexivity. Qed.
Lemma rig_scalars D pos rot anchor m : keeps_scalars (rig D pos rot anchor) m.
Proof. intros q Hq. split; [exact Hq|reflexivity]. Qed.
Lemma rig_qpos D pos rot anchor m q : d_qpos (update (rig D pos rot anchor) m q) = q. Proof. reflexivity. Qed.
Definition spot (ts : list jnttype) (t : vec) : jaxc := compiled [OpTargetPos (tvec t); OpModel (chain ts)] (pos_comp None).
Lemma spot_ok t0 t : List.length t = 3%nat -> position_task None "tip" OBody (spot [t0] t) /\ target_is (spot [t0] t) t /\ j_model (spot [t0] t) = chain [t0] /\
  (exists W lm, j_ext (spot [t0] t) = JTask W lm (JTPos 1 OBody (tvec t))) /\ j_mask_idxs (spot [t0] t) = [0; 1; 2]%Z.
Proof.
  intros H. destruct t as [|a [|b [|c [|? ?]]]]; try discriminate. split; [|split; [right; do 4 eexists; vm_compute; reflexivity|split; [reflexivity|split; [do 2 eexists; vm_compute; reflexivity|reflexivity]]]].
  exists "reach"%string, (tscalar 1), (tscalar 2), None, 0, (pos_comp None). split; [exact (pos_comp_new None)|].
  eapply compiled_is; [reflexivity|constructor; [exact I|constructor; [apply chain_sound|constructor]]|split; [exact I|split; [vm_compute; reflexivity|exact I]]|eexists; vm_compute; reflexivity].
Qed.
Lemma spot_value D pos rot anchor t0 a b c q : let j := spot [t0] [a; b; c] in call (rig D pos rot anchor) j (update (rig D pos rot anchor) (j_model j) q) = Ok [vx (pos q) - a; vy (pos q) - b; vz (pos q) - c].
Proof. cbv zeta. destruct (spot_ok t0 [a; b; c] eq_refl) as (_ & _ & _ & (W & lm & E) & M). unfold call. rewrite E, M. reflexivity. Qed.
Lemma spot_smooth D pos rot anchor t0 a b c q gx gy gz : List.length q = jnt_nq t0 -> has_gradient (fun y => vx (pos y)) q gx -> has_gradient (fun y => vy (pos y)) q gy -> has_gradient (fun y => vz (pos y)) q gz ->
  List.length gx = jnt_nq t0 -> List.length gy = jnt_nq t0 -> List.length gz = jnt_nq t0 ->
  is_mat 3 (m_nq (chain [t0])) [gx; gy; gz] /\ has_jacobian (value_at (rig D pos rot anchor) (spot [t0] [a; b; c])) q [gx; gy; gz].
Proof.
  intros Hq X Y Z Lx Ly Lz. split; [split; [reflexivity|]; assert (N : m_nq (chain [t0]) = jnt_nq t0) by (cbn; lia); rewrite N; repeat constructor; assumption|].
  assert (S : forall F g k, has_gradient F q g -> List.length g = jnt_nq t0 -> has_gradient (fun y => F y - k) q g).
  { intros F g k H L. eapply grad_eq; [|apply (grad_sub F (fun _ => k)); [|exact H|apply grad_const]]; [|rewrite vzero_length; congruence].
    apply list_ext; [rewrite vsub_length, vzero_length; rewrite ?vzero_length; congruence|]. intros i _. rewrite nth_vsub, nth_vzero by (rewrite vzero_length; congruence). ring. }
  intros i Hi. cbn in Hi. destruct i as [|[|[|i]]]; [| | |lia]; cbn [nth]; unfold value_at.
  - apply grad_ext with (F := fun y => vx (pos y) - a); [now apply S|]. intros y _. rewrite spot_value. reflexivity.
  - apply grad_ext with (F := fun y => vy (pos y) - b); [now apply S|]. intros y _. rewrite spot_value. reflexivity.
  - apply grad_ext with (F := fun y => vz (pos y) - c); [now apply S|]. intros y _. rewrite spot_value. reflexivity.
Qed.

(** A hinge at the origin carrying a body at distance one. *)
Definition turn_z (t : R) : m3 := mkM3 (cos t) (- sin t) 0 (sin t) (cos t) 0 0 0 1.
Definition circle (q : list R) : v3 := mkV (cos (nth 0 q 0)) (sin (nth 0 q 0)) 0.
Definition crank D : lib := rig D circle (fun q => turn_z (nth 0 q 0)) v3_zero.
Lemma crank_smooth D t q : List.length t = 3%nat -> List.length q = 1%nat -> smooth (crank D) (spot [JHinge] t) 3 q.
Proof.
  intros Ht Hq. destruct t as [|a [|b [|c [|? ?]]]]; try discriminate. split; [intros y _; eexists; split; [apply spot_value|reflexivity]|]. destruct (spot_ok JHinge [a; b; c] eq_refl) as (_ & _ & Em & _). rewrite Em.
  eexists. apply spot_smooth; [exact Hq| | | | | | ]; unfold circle; cbn [vx vy vz].
  1: eapply (grad_comp cos); [apply grad_coord; lia|apply derivable_pt_lim_cos].
  1: eapply (grad_comp sin); [apply grad_coord; lia|apply derivable_pt_lim_sin].
  1: apply grad_const.
  all: rewrite ?vscale_length, ?unit_row_length, ?vzero_length; exact Hq.
Qed.

(** A ball joint at the origin carrying a body at distance one; mjx normalises quaternions. *)
Definition sphere (q : list R) : v3 :=
  let w := nth 0 q 0 in let x := nth 1 q 0 in let y := nth 2 q 0 in let z := nth 3 q 0 in let n := w * w + x * x + y * y + z * z in
  mkV ((w * w + x * x - y * y - z * z) / n) (2 * (x * y + w * z) / n) (2 * (x * z - w * y) / n).
Definition joystick D : lib := rig D sphere (fun q => q_mat (mkQ (nth 0 q 0) (nth 1 q 0) (nth 2 q 0) (nth 3 q 0))) v3_zero.
Lemma joystick_smooth D a b c : is_mat 3 4 [[0; 0; 0; 0]; [0; 0; 0; 2]; [0; 0; -2; 0]] /\ has_jacobian (value_at (joystick D) (spot [JBall] [a; b; c])) [1; 0; 0; 0] [[0; 0; 0; 0]; [0; 0; 0; 2]; [0; 0; -2; 0]].
Proof.
  apply (spot_smooth D sphere _ v3_zero JBall); try reflexivity; unfold sphere; cbn [vx vy vz]; (eapply grad_eq; [|grad]); cbn [nth]; try lra; cbn; repeat (apply f_equal2; [field|]); reflexivity.
Qed.
Lemma joystick_is_smooth D t : List.length t = 3%nat -> smooth (joystick D) (spot [JBall] t) 3 [1; 0; 0; 0].
Proof.
  intros Ht. destruct t as [|a [|b [|c [|? ?]]]]; try discriminate. split; [intros y _; eexists; split; [apply spot_value|reflexivity]|]. eexists. exact (joystick_smooth D a b c).
Qed.
(** The position task on the ball joint: turning with unit velocity moves the body sideways
    with velocity one, the reported Jacobian says two. *)
Lemma ball_joint : wf_joints (chain [JBall]) /\ normalised (chain [JBall]) [1; 0; 0; 0] /\ only_turns (chain [JBall]) [0; 0; 1].
Proof.
  split; [apply sound_wf, chain_sound|]. split.
  - intros j a H. destruct H as [(H & ->)|(H & ->)]; destruct j as [|[|j]]; try discriminate H.
    unfold norm2_at. cbn. ring.
  - split; intros j H; [destruct H as (t & H & K)|]; destruct j as [|[|j]]; try discriminate H. injection H as <-. discriminate K.
Qed.
Lemma spot_automatic t0 t : List.length t = 3%nat -> automatic (spot [t0] t).
Proof. intros H. destruct (spot_ok t0 t H) as (_ & _ & _ & (W & lm & E) & _). unfold automatic. now rewrite E. Qed.
Lemma spot_kinematic D pos rot anchor t0 t : List.length t = 3%nat -> kinematic (rig D pos rot anchor) (spot [t0] t).
Proof.
  intros H. destruct (spot_ok t0 t H) as (_ & _ & Em & (W & lm & E) & _). apply kinematic_position; [apply rig_positions|].
  left. do 5 eexists. exact E.
Qed.
Lemma ball_doubles D : sound_jac D -> let j := spot [JBall] [0; 0; 0] in let L := joystick D in let q := [1; 0; 0; 0] in let v := [0; 0; 1] in
  exists J, jacobian L j (update L (j_model j) q) = Ok J /\ derivative_at_0 (fun t => nth 1 (value_after L j q v t) 0) 1 /\ nth 1 (mv J v) 0 = 2.
Proof.
  intros HD. cbv zeta. destruct ball_joint as (Hw & Hn & Ho). destruct (spot_ok JBall [0; 0; 0] eq_refl) as (_ & _ & Em & _).
  destruct (turning_twice (joystick D) (spot [JBall] [0; 0; 0]) 3 [1; 0; 0; 0] [0; 0; 1]) as (J & EJ & _ & Hd); rewrite ?Em; auto; try reflexivity.
  - now apply spot_kinematic.
  - now apply joystick_is_smooth.
  - rewrite Em in EJ. destruct (Hd 1%nat ltac:(lia)) as (l & Hl & E2). exists J. split; [exact EJ|].
    assert (E : nth 1 (mv J [0; 0; 1]) 0 = 2).
    { destruct (joystick_smooth D 0 0 0) as [HM HJ].
      pose proof (auto_jacobian (joystick D) (spot [JBall] [0; 0; 0]) 3 [1; 0; 0; 0] [[0; 0; 0; 0]; [0; 0; 0; 2]; [0; 0; -2; 0]] HD (spot_automatic JBall [0; 0; 0] eq_refl) (spot_kinematic D _ _ _ JBall [0; 0; 0] eq_refl)) as A.
      rewrite Em in A. specialize (A eq_refl (proj1 (joystick_is_smooth D [0; 0; 0] eq_refl)) HM HJ eq_refl). rewrite A in EJ. unfold to_velocity in EJ. cbn [d_qpos] in EJ.
      change (d_qpos (update (joystick D) (chain [JBall]) [1; 0; 0; 0])) with [1; 0; 0; 0] in EJ.
      change (Nat.eqb (m_nq (chain [JBall])) (m_nv (chain [JBall]))) with false in EJ. cbv iota in EJ.
      destruct (jac_dq2v (chain [JBall]) [1; 0; 0; 0]) as [E0|] eqn:EE; [|discriminate EJ]. vm_compute in EE. apply Ok_inj in EE. subst E0.
      cbn [bind] in EJ. change (is_matb _ _ _) with true in EJ. cbv iota in EJ. apply Ok_inj in EJ. subst J. cbn. field. }
    split; [|exact E]. assert (l = 1) by lra. subst l. exact Hl.
Qed.

(** ** Custom tasks that read the centre of mass *)
Lemma grad_zero c x : has_gradient (fun _ => c) x (vzero (List.length x)). Proof. apply grad_const. Qed.
Lemma nth_repeat_in {A} (a d : A) k i : (i < k)%nat -> nth i (repeat a k) d = a.
Proof. revert i. induction k; intros [|i] H; cbn; try lia; [reflexivity|]. apply IHk. lia. Qed.
Lemma mm_zero p n k B : is_mat n p B -> mm p (repeat (vzero n) k) B = repeat (vzero p) k.
Proof.
  intros [_ HB]. unfold mm. induction k as [|k IH]; [reflexivity|]. cbn. rewrite IH. f_equal.
  apply list_ext; [rewrite vm_length by exact HB; now rewrite vzero_length|]. intros i Hi. rewrite nth_vzero, nth_vm by exact HB. apply dot_vzero_l.
Qed.
Lemma zero_mat n k : is_mat k n (repeat (vzero n) k).
Proof. split; [apply repeat_length|apply Forall_forall; intros r Hr; apply repeat_spec in Hr; subst; apply vzero_length]. Qed.
Lemma custom_com_zero L j W lm f g k q : let m := j_model j in sound_jac (l_jacrev L) -> j_ext j = JTask W lm (JTCustom f) ->
  (forall d, f d = g (d_subtree_com d)) -> (forall x, List.length (g x) = k) ->
  (forall y, d_subtree_com (kin L m y) = d_subtree_com (l_make_data L m)) -> wf_joints m -> List.length q = m_nq m -> List.length (d_qpos (update L m q)) = m_nq m ->
  jacobian L j (update L m q) = Ok (repeat (vzero (m_nv m)) k).
Proof.
  cbv zeta. intros HD E Hf Hg Hk Hw Hq Hd. set (m := j_model j) in *. unfold jacobian. rewrite E. unfold jac_auto. fold m.
  rewrite (HD _ (fun _ => g (d_subtree_com (l_make_data L m))) _ k (repeat (vzero (m_nq m)) k)).
  - cbn [bind]. unfold to_velocity. destruct (Nat.eqb (m_nq m) (m_nv m)) eqn:N; [apply Nat.eqb_eq in N; now rewrite N|].
    destruct (jac_dq2v_spec m (d_qpos (update L m q)) Hw Hd) as (E0 & -> & ME & _). cbn [bind].
    assert (B : is_matb (List.length (repeat (vzero (m_nq m)) k)) (m_nq m) (repeat (vzero (m_nq m)) k) = true) by (apply is_matb_spec; rewrite repeat_length; apply zero_mat).
    match goal with |- context [is_matb ?a ?b ?c] => replace (is_matb a b c) with true by (symmetry; exact B) end. f_equal. now apply (mm_zero (m_nv m) (m_nq m)).
  - intros y Hy. split; [|apply Hg]. unfold call. rewrite E, Hf, Hk. reflexivity.
  - rewrite Hd. apply zero_mat.
  - intros i Hi. rewrite repeat_length in Hi. rewrite nth_repeat_in by exact Hi. rewrite <- Hd. apply grad_const.
Qed.
(** A sliding body, and a task asking for the first coordinate of the centre of mass. *)
Definition slider D : lib := rig D (fun q => mkV (nth 0 q 0) 0 0) (fun _ => mkM3 1 0 0 0 1 0 0 0 1) v3_zero.
Definition com_x (c : list (list R)) : vec := [nth 0 (nth 0 c []) 0].
Definition lean_fun (d : mjdata) : vec := com_x (d_subtree_com d).
Definition lean_task : comp := mkC (mkA "lean" None (tscalar 1) (fun x => x) 1 None [] (XTask (tscalar 1) 0 (TCustom lean_fun))) true None.
Definition lean : jaxc := compiled [OpModel (chain [JSlide])] lean_task.
Lemma lean_made : constructed lean_task.
Proof.
  eapply made_custom_task with (name := "lean"%string) (cost := tscalar 1) (gain := tscalar 1) (gf := None) (lm := 0) (mk := None) (d := 1%Z) (f := lean_fun).
  unfold new_custom_task, init_task. cbn. rewrite not_neg0. reflexivity.
Qed.
Lemma lean_ok : compiled_from lean_task lean /\ j_model lean = chain [JSlide] /\ exists W lm, j_ext lean = JTask W lm (JTCustom lean_fun).
Proof.
  split; [|split; [reflexivity|do 2 eexists; reflexivity]].
  eapply compiled_is; [reflexivity|constructor; [apply chain_sound|constructor]|split; [reflexivity|exact I]|eexists; reflexivity].
Qed.
Lemma lean_zero D : sound_jac D -> let L := slider D in let q := [0] in
  jacobian L lean (update L (j_model lean) q) = Ok [[0]] /\ derivative_at_0 (fun t => nth 0 (value_after L lean q [1] t) 0) 1.
Proof.
  intros HD. cbv zeta. destruct lean_ok as (_ & Em & W & lm & E). split.
  - rewrite (custom_com_zero (slider D) lean W lm lean_fun com_x 1 [0] HD E); rewrite ?Em; try reflexivity. apply sound_wf, chain_sound.
  - apply (derivative_ext (fun t => 0 + t * 1)); [|apply derivative_affine].
    intros t. unfold value_after. rewrite Em. cbn. ring.
Qed.
Lemma ball_refuted D : sound_jac D -> exists L j J, l_jacrev L = D /\ position_task None "tip" OBody j /\ wf_joints (j_model j) /\
  smooth L j 3 [1; 0; 0; 0] /\ normalised (j_model j) [1; 0; 0; 0] /\ only_turns (j_model j) [0; 0; 1] /\
  jacobian L j (update L (j_model j) [1; 0; 0; 0]) = Ok J /\ derivative_at_0 (fun t => nth 1 (value_after L j [1; 0; 0; 0] [0; 0; 1] t) 0) 1 /\ nth 1 (mv J [0; 0; 1]) 0 = 2.
Proof.
  intros HD. destruct (ball_doubles D HD) as (J & H). destruct ball_joint as (Hw & Hn & Ho). exists (joystick D), (spot [JBall] [0; 0; 0]), J. split; [reflexivity|].
  split; [apply (spot_ok JBall [0; 0; 0] eq_refl)|]. split; [exact Hw|]. split; [now apply joystick_is_smooth|]. split; [exact Hn|]. split; [exact Ho|]. exact H.
Qed.
Lemma lean_refuted D : sound_jac D -> exists L c j, l_jacrev L = D /\ constructed c /\ compiled_from c j /\
  jacobian L j (update L (j_model j) [0]) = Ok [[0]] /\ derivative_at_0 (fun t => nth 0 (value_after L j [0] [1] t) 0) 1.
Proof.
  intros HD. exists (slider D), lean_task, lean. split; [reflexivity|]. split; [exact lean_made|]. split; [apply lean_ok|]. exact (lean_zero D HD).
Qed.
