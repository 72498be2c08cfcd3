(** Lemmas behind C92: the documented programs. *)
From Verif Require Import Base Lin LinFacts Mjx Typing Component Problem SpecComponent SpecJoint SpecHistory SpecTyping SpecCollision SpecTree SpecShape SpecContact SpecValue SpecProblem SpecQP SpecFit SpecTrace SpecSetup.
From Verif Require Import JaxComponents LocalIK BindThms2 ComponentFacts ComponentFacts2 ApiSteps ProbThms SetupFacts SetupFacts2 SetupFacts3 SetupFacts4.
Open Scope nat_scope.
#[local] Arguments update_model : simpl never.
#[local] Arguments jax_component : simpl never.
#[local] Arguments build_component : simpl never.

(** The four components of examples/local_ik.py. *)
Lemma frame_new n cost g s lm ft : new_frame_task n (tscalar cost) (tscalar g) s OBody None lm None = Ok ft ->
  ft = new_comp (mkA n None (tscalar g) (fun x => x) 6 None [] (XTask (tscalar cost) lm (TFrame (mkO s OBody (-1)) (tvec se3_identity)))).
Proof. unfold new_frame_task, init_task. cbn. destruct (Rlt_dec lm 0); [discriminate|]. cbn. now intros H; injection H as <-. Qed.
Lemma frame_suits n cost g s lm ft m i : new_frame_task n (tscalar cost) (tscalar g) s OBody None lm None = Ok ft -> has_object m OBody s i ->
  constructed ft /\ wf_arrays (c_at ft) /\ suits m ft 6 /\ plain m ft /\ nm ft = n.
Proof.
  intros H Hi. split; [now apply made_frame_task in H|]. apply frame_new in H. subst ft. split; [split; reflexivity|].
  split; [|split; [split; [exact I|exists se3_identity; split; reflexivity]|reflexivity]].
  split; [now left|]. split; [now left|]. split; [reflexivity|]. now exists i.
Qed.
Lemma limits_new n g gf sdg jb : new_joint_barrier n (tscalar g) gf sdg None None None = Ok jb ->
  jb = new_comp (mkA n None (tscalar g) (match gf with Some f => f | None => fun x => x end) (-1) None [] (XBarrier sdg (BJoint (mkJB None None None None)))).
Proof. cbn. now intros H; injection H as <-. Qed.
Lemma limits_suits n g gf sdg jb m : new_joint_barrier n (tscalar g) gf sdg None None None = Ok jb ->
  constructed jb /\ wf_arrays (c_at jb) /\ suits m jb (2 * n_scalar m) /\ plain m jb /\ nm jb = n.
Proof.
  intros H. split; [now apply made_joint_barrier in H|]. apply limits_new in H. subst jb. split; [split; [reflexivity|exact I]|].
  split; [|split; [cbn; intros t [X|X]; discriminate|reflexivity]].
  split; [now left|]. split; [exact I|]. split; [reflexivity|]. intros _. reflexivity.
Qed.
Lemma wall_new n g s px sdg pb : new_position_barrier n (tscalar g) s OBody None (Some (tscalar px)) "max" None sdg (Some (mvec [1; 0; 0]%Z)) = Ok pb ->
  pb = mkC (mkA n None (tscalar g) (fun x => x) 1 (Some [1; 0; 0]%Z) [0%Z] (XBarrier sdg (BPos (mkPB (mkO s OBody (-1)) LMax [1%Z] (tvec [0%R]) (tvec [px]))))) true None.
Proof. vm_compute. intros H; injection H as <-. reflexivity. Qed.
Lemma wall_suits n g s px sdg pb m i : new_position_barrier n (tscalar g) s OBody None (Some (tscalar px)) "max" None sdg (Some (mvec [1; 0; 0]%Z)) = Ok pb -> has_object m OBody s i ->
  constructed pb /\ wf_arrays (c_at pb) /\ suits m pb 1 /\ plain m pb /\ nm pb = n.
Proof.
  intros H Hi. split; [now apply made_position_barrier in H|]. apply wall_new in H. subst pb. split; [split; [reflexivity|exact I]|].
  split; [|split; [split; [exact I|split; eexists; reflexivity]|reflexivity]].
  split; [now left|]. split; [reflexivity|]. now exists i.
Qed.
Lemma guard_new n g sdg dm sc : new_self_collision n (tscalar g) None sdg dm [] [] (-1) = Ok sc ->
  sc = new_comp (mkA n None (tscalar g) (fun x => x) (-1) None [] (XBarrier sdg (BSelf (mkSC dm [] [] None None (-1))))).
Proof. cbn. now intros H; injection H as <-. Qed.
Lemma guard_suits n g sdg dm sc m : new_self_collision n (tscalar g) None sdg dm [] [] (-1) = Ok sc -> sound_model m ->
  constructed sc /\ wf_arrays (c_at sc) /\ (exists ps, checks_exactly m (all_bodies m) [] ps /\ suits m sc (List.length ps)) /\ plain m sc /\ nm sc = n.
Proof.
  intros H Hm. split; [now apply made_self_collision in H|]. apply guard_new in H. subst sc. split; [split; [reflexivity|exact I]|].
  split; [|split; [exact I|reflexivity]]. destruct Hm as (_ & Wb & _ & Wn & _).
  destruct (generated m _ (all_bodies m) [] [] Wb Wn (refers_all m) (Forall2_nil _)) as (exs & ps & _ & _ & C). exists ps. split; [exact C|].
  split; [now left|]. cbn. exists (all_bodies m), [], ps. split; [reflexivity|]. split; [constructor|]. split; [exact C|reflexivity].
Qed.

Lemma local_ik_programs m s i lo hi cost g1 g2 g3 g4 lm sdg px d dm ft pb jb sc os : sound_model m -> has_object m OBody s i ->
  new_frame_task "ee_task" (tscalar cost) (tscalar g1) s OBody None lm None = Ok ft ->
  new_position_barrier "ee_barrier" (tscalar g2) s OBody None (Some (tscalar px)) "max" None sdg (Some (mvec [1; 0; 0]%Z)) = Ok pb ->
  new_joint_barrier "jnt_range" (tscalar g3) None d None None None = Ok jb ->
  new_self_collision "self_collision_barrier" (tscalar g4) None d dm [] [] (-1) = Ok sc ->
  Forall steering os ->
  let prog := setup m (tscalar lo) (tscalar hi) [ft; pb; jb; sc] in
  runs prog empty_world /\
  exists pd ps, compiled_by (prog ++ os) 0 pd /\ checks_exactly m (all_bodies m) [] ps /\ jd_model pd = m /\
    List.length (jd_vmin pd) = m_nv m /\ List.length (jd_vmax pd) = m_nv m /\
    map (fun e => (fst e, j_dim (snd e))) (jd_comps pd) =
      [("ee_task", 6); ("ee_barrier", 1); ("jnt_range", 2 * Z.of_nat (n_scalar m)); ("self_collision_barrier", Z.of_nat (List.length ps))]%string%Z.
Proof.
  intros Hm Hi Hf Hp Hj Hg Hst. cbv zeta.
  destruct (frame_suits _ _ _ _ _ _ m i Hf Hi) as (F1 & F2 & F3 & F4 & F5). destruct (wall_suits _ _ _ _ _ _ m i Hp Hi) as (P1 & P2 & P3 & P4 & P5).
  destruct (limits_suits _ _ _ _ _ m Hj) as (J1 & J2 & J3 & J4 & J5). destruct (guard_suits _ _ _ _ _ m Hg Hm) as (G1 & G2 & (ps & C & G3) & G4 & G5).
  assert (A1 : Forall constructed [ft; pb; jb; sc]) by (repeat constructor; assumption).
  assert (A2 : Forall (fun c => wf_arrays (c_at c)) [ft; pb; jb; sc]) by (repeat (constructor; [assumption|]); constructor).
  assert (A3 : Forall (fun c => exists d, suits m c d) [ft; pb; jb; sc]) by (repeat (constructor; [eexists; eassumption|]); constructor).
  assert (A4 : NoDup (map nm [ft; pb; jb; sc])). { cbn [map]. rewrite F5, P5, J5, G5. repeat constructor; cbn; intuition discriminate. }
  assert (A5 : Forall (bodies_known m) [ft; pb; jb; sc]) by (eapply Forall_impl; [|exact A3]; intros c; apply suits_known).
  assert (A6 : forall x, limit_fits m (tscalar x)) by (intros; now left).
  split. { exact (proj1 (proj2 (setup_iff m (tscalar lo) (tscalar hi) _ Hm eq_refl eq_refl A1 A2 A5) (conj (A6 _) (conj (A6 _) (conj A4 A3))))). }
  destruct (loop_compiles m (tscalar lo) (tscalar hi) _ os Hm eq_refl eq_refl A1 A2 (A6 _) (A6 _) A4 A3 Hst) as (pd & Q1 & Q2 & Q3 & Q4 & Q5).
  exists pd, ps. do 5 (split; [assumption|]). clear Q2. assert (Wn : wf_names m) by (destruct Hm as (_ & _ & _ & X & _); exact X).
  inversion Q5 as [|? e1 ? l1 (N1 & K1 & d1 & S1 & D1) Q5' E]; subst. inversion Q5' as [|? e2 ? l2 (N2 & K2 & d2 & S2 & D2) Q5'' E]; subst. inversion Q5'' as [|? e3 ? l3 (N3 & _ & d3 & S3 & D3) Q5''' E]; subst.
  inversion Q5''' as [|? e4 ? l4 (N4 & _ & d4 & S4 & D4) Q5'''' E]; subst. inversion Q5''''; subst. cbn [map].
  rewrite (suits_unique m ft d1 6 Wn S1 F3) in D1. rewrite (suits_unique m pb d2 1 Wn S2 P3) in D2. rewrite (suits_unique m jb d3 _ Wn S3 J3) in D3. rewrite (suits_unique m sc d4 _ Wn S4 G3) in D4.
  rewrite N1, N2, N3, N4, D1, D2, D3, D4, F5, P5, J5, G5, Nat2Z.inj_mul. reflexivity.
Qed.

(** The control loop of README.md. *)
Lemma readme_plus m s i lo hi cost g1 g2 lm d ft jb os : sound_model m -> has_object m OBody s i -> 0 < n_scalar m ->
  wf_tensor lo -> wf_tensor hi -> limit_fits m lo -> limit_fits m hi ->
  new_frame_task "ee_task" (tscalar cost) (tscalar g1) s OBody None lm None = Ok ft ->
  new_joint_barrier "jnt_range" (tscalar g2) None d None None None = Ok jb ->
  Forall steering os -> Forall proper os -> Forall plain_call os ->
  exists pd, compiled_by (setup m lo hi [ft; jb] ++ os) 0 pd /\ (forall j, In j (comps_of pd) -> ~ needs_care j) /\
  forall L So q v, sound_lib L m -> t_shape q = [m_nq m] -> wf_data m (update L m (t_data q)) ->
    exists Q, assemble L m pd (update L m (t_data q)) = Ok Q /\ solve L So m q v pd = Ok (So Q, sol_primal (So Q)).
Proof.
  intros Hm Hi Hn Wl Wh Ll Lh Hf Hj Hst Hpr Hpc.
  destruct (frame_suits _ _ _ _ _ _ m i Hf Hi) as (F1 & F2 & F3 & F4 & F5). destruct (limits_suits _ _ _ _ _ m Hj) as (J1 & J2 & J3 & J4 & J5).
  assert (A1 : Forall constructed [ft; jb]) by (repeat constructor; assumption).
  assert (A2 : Forall (fun c => wf_arrays (c_at c)) [ft; jb]) by (repeat (constructor; [assumption|]); constructor).
  assert (A3 : Forall (fun c => exists d, suits m c d) [ft; jb]) by (repeat (constructor; [eexists; eassumption|]); constructor).
  assert (A4 : NoDup (map nm [ft; jb])). { cbn [map]. rewrite F5, J5. repeat constructor; cbn; intuition discriminate. }
  assert (A5 : Forall (plain m) [ft; jb]) by (repeat (constructor; [assumption|]); constructor).
  destruct (loop_solves m lo hi _ os Hm Wl Wh A1 A2 Ll Lh A4 A3 A5 Hst Hpr Hpc) as (pd & Hpd & Hso). exists pd. split; [exact Hpd|].
  destruct (loop_compiles m lo hi _ os Hm Wl Wh A1 A2 Ll Lh A4 A3 Hst) as (pd' & Q1 & _ & _ & _ & Q5). assert (pd' = pd) by (unfold compiled_by in *; congruence). subst pd'.
  inversion Q5 as [|? e1 ? l1 (N1 & K1 & d1 & S1 & D1) Q5' E1 E2]; subst. inversion Q5' as [|? e2 ? l2 (N2 & K2 & d2 & S2 & D2) Q5'' E3 E4]; subst. inversion Q5''; subst. clear Q5 Q5' Q5''.
  apply frame_new in Hf. apply limits_new in Hj. subst ft jb. unfold same_class in K1, K2. cbn in K1, K2. destruct (j_ext (snd e1)) as [c1 l1 k1|c1 k1|c1 l1 k1 h1] eqn:X1; try contradiction. destruct k1; try contradiction.
  destruct (j_ext (snd e2)) as [c2 l2 k2|c2 k2|c2 l2 k2 h2] eqn:X2; try contradiction. destruct k2; try contradiction.
  assert (Nc : forall j, In j (comps_of pd) -> ~ needs_care j).
  { intros j Hin Hc. unfold comps_of in Hin. rewrite <- E2 in Hin. destruct Hin as [<-|[<-|[]]]; unfold needs_care in Hc; rewrite ?X1, ?X2 in Hc; contradiction. }
  split; [exact Nc|]. intros L So q v HL Hq Hd. destruct (Hso L So q v HL Hq Hd) as [G|(_ & j & J & H1 & H2 & H3 & H4 & H5)].
  - intros j Hin Hc. now elim (Nc j Hin).
  - exact G.
  - exfalso. unfold comps_of in H1. rewrite <- E2 in H1. destruct H1 as [<-|[<-|[]]]; unfold is_barrier in H2.
    + rewrite X1 in H2. discriminate.
    + assert (Z : j_dim (snd e2) = 0%Z) by (apply H5; rewrite X2; repeat eexists).
      assert (Wn : wf_names m) by (destruct Hm as (_ & _ & _ & X & _); exact X). rewrite (suits_unique m _ d2 _ Wn S2 J3) in D2. lia.
Qed.
Lemma readme_solves m s i lo hi cost g1 g2 lm d ft jb os : sound_model m -> has_object m OBody s i -> 0 < n_scalar m ->
  wf_tensor lo -> wf_tensor hi -> limit_fits m lo -> limit_fits m hi ->
  new_frame_task "ee_task" (tscalar cost) (tscalar g1) s OBody None lm None = Ok ft ->
  new_joint_barrier "jnt_range" (tscalar g2) None d None None None = Ok jb ->
  Forall steering os -> Forall proper os -> Forall plain_call os ->
  exists pd, compiled_by (setup m lo hi [ft; jb] ++ os) 0 pd /\
  forall L So q v, sound_lib L m -> t_shape q = [m_nq m] -> wf_data m (update L m (t_data q)) ->
    exists Q, assemble L m pd (update L m (t_data q)) = Ok Q /\ solve L So m q v pd = Ok (So Q, sol_primal (So Q)).
Proof.
  intros H1 H2 H3 H4 H5 H6 H7 H8 H9 H10 H11 H12. destruct (readme_plus m s i lo hi cost g1 g2 lm d ft jb os H1 H2 H3 H4 H5 H6 H7 H8 H9 H10 H11 H12) as (pd & A & _ & B). now exists pd.
Qed.
