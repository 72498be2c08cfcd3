(** Exact forms of C27, C58, C66, C69 and C72: when the listed property holds and when it fails. *)
From Verif Require Import Base Lin LinFacts Mjx Typing Component SpecComponent SpecJoint SpecHistory SpecTyping SpecCollision Witness CompThms2.
From Verif Require Import Problem SpecProblem SpecShape Conf JaxComponents LocalIK GlobalIK SpecQP SpecFit SpecGlobal QPCases MotionCases FitCases GlobalFacts GlobalFacts2 GlobalCases Visualize SpecViz VizCases SpecExact2 ExactThms3 VizExact.
Open Scope R_scope.

(** ** C27 *)
(** Binding an object component to a model without its object fails; the component keeps the
    object number it had exactly if it had none. *)
Theorem C27_keeps_object_iff m c o : wf_names m -> object_of (c_at c) = Some o -> (forall i, ~ has_object m (ob_type o) (ob_name o) i) ->
  (object_of (c_at (snd (update_model m c))) = Some o <-> ob_id o = (-1)%Z).
Proof. exact (rebind_keeps_iff m c o). Qed.
Print Assumptions C27_keeps_object_iff.

(** A position or frame task that compiled before the failed binding always compiles after it,
    to the same compiled task except that it tracks object number -1. *)
Theorem C27_task_compiles_without_object m c o cost lm k j : wf_names m -> object_of (c_at c) = Some o -> (forall i, ~ has_object m (ob_type o) (ob_name o) i) -> reachable c ->
  a_ext (c_at c) = XTask cost lm k -> compiles c j -> compiles (snd (update_model m c)) (loses_object j).
Proof. exact (rebind_compiles m c o cost lm k j). Qed.
Print Assumptions C27_task_compiles_without_object.

Example C27_exact_case : let c := history demo_ops demo_task in let m := with_names arm2 [] in
  wf_names m /\ object_of (c_at c) = Some (mkO "tip" OBody 2) /\ (forall i, ~ has_object m OBody "tip" i) /\ reachable c /\ (exists cost lm k, a_ext (c_at c) = XTask cost lm k) /\ exists j, compiles c j.
Proof.
  cbv zeta. split; [split; cbn; tauto|]. split; [reflexivity|]. split; [intros i []|]. split; [exact (proj1 demo_reads)|]. split; [do 3 eexists; reflexivity|]. eexists. vm_compute. reflexivity.
Qed.

(** ** C58 *)
(** The velocity returned by the global solver has one entry per degree of freedom exactly if
    all joints of the robot are hinges or slides. *)
Theorem C58_velocity_length_iff L grad O sm dt x st pd q' v st' : wf_joints sm -> List.length x = m_nq sm -> grad_keeps_length grad -> step_keeps_length O ->
  gsolve L grad O sm dt (tvec x) st pd = Ok (q', v, st') -> (List.length v = m_nv sm <-> Forall (fun t => is_scalar t = true) (m_jnt_type sm)).
Proof. exact (velocity_right_iff L grad O sm dt x st pd q' v st'). Qed.
Print Assumptions C58_velocity_length_iff.

Example C58_length_case : wf_joints ball /\ ~ Forall (fun t => is_scalar t = true) (m_jnt_type ball) /\ exists pd, gsolve even_lib true_grad (descent 1) ball 1 (tvec [1; 0; 0; 0]) tt pd = Ok ([1; 1; 0; 0], [0; 1; 0; 0], tt).
Proof. split; [apply chain_joints|]. split; [intros H; inversion H; discriminate|]. exists tilt_pd. now apply tilt_step, true_grad_sound. Qed.

(** ** C66 *)
(** The limit rows can be used, that is there are as many bounds as rows, exactly if the limit
    is a Python float or a vector with one entry per degree of freedom. *)
Theorem C66_usable_iff m l : (forall t, l = LArr t -> wf_tensor t) ->
  ((exists G h, get_configuration_limit m l = Ok (G, h) /\ List.length h = List.length G) <-> (exists x, l = LFloat x) \/ (exists la, l = LArr (tvec la) /\ List.length la = m_nv m)).
Proof. exact (limit_usable_iff m l). Qed.
Print Assumptions C66_usable_iff.

Example C66_usable_case : exists G h, get_configuration_limit arm2 (LArr (tvec [1; 2; 3])) = Ok (G, h) /\ List.length h = 6%nat /\ List.length G = 4%nat.
Proof. do 2 eexists. split; [reflexivity|]. split; reflexivity. Qed.

(** ** C69 *)
(** Of [n] markers the k-th (counting from 0) has the colour that is the fraction
    [(n - 1 - k) / (n - 1)] of the way from [color_begin] to [color_end]. *)
Theorem C69_exact_colours ga os1 os2 nm sz a cb e ty n nq q0 vs rs f :
  fresh ga (os1 ++ VAdd nm sz a cb (Some e) ty n :: os2) (new_viz nq q0 vs rs f) ->
  fst (vstep ga (VAdd nm sz a cb (Some e) ty n) (vrun ga os1 (new_viz nq q0 vs rs f))) = Ok tt ->
  forall k nk, nth_error (names_used nm n) k = Some nk -> List.length cb = List.length e -> (2 <= n)%Z ->
  exists m, assoc nk (z_markers (vrun ga (os1 ++ VAdd nm sz a cb (Some e) ty n :: os2) (new_viz nq q0 vs rs f))) = Some m /\
    mk_rgba m = blend (INR (Z.to_nat n - 1 - k) / INR (Z.to_nat n - 1)) e cb ++ [a].
Proof. exact (colour_exact ga os1 os2 nm sz a cb e ty n nq q0 vs rs f). Qed.
Print Assumptions C69_exact_colours.

(** So the first marker has [color_begin] and the last one [color_end] exactly if the two
    colours are equal. *)
Theorem C69_order_right_iff ga os1 os2 nm sz a cb e ty n nq q0 vs rs f :
  fresh ga (os1 ++ VAdd nm sz a cb (Some e) ty n :: os2) (new_viz nq q0 vs rs f) ->
  fst (vstep ga (VAdd nm sz a cb (Some e) ty n) (vrun ga os1 (new_viz nq q0 vs rs f))) = Ok tt ->
  forall nf nl, List.length cb = List.length e -> (2 <= n)%Z -> nth_error (names_used nm n) 0 = Some nf -> nth_error (names_used nm n) (Z.to_nat n - 1) = Some nl ->
  let z := vrun ga (os1 ++ VAdd nm sz a cb (Some e) ty n :: os2) (new_viz nq q0 vs rs f) in
  ((exists mf ml, assoc nf (z_markers z) = Some mf /\ mk_rgba mf = cb ++ [a] /\ assoc nl (z_markers z) = Some ml /\ mk_rgba ml = e ++ [a]) <-> cb = e).
Proof. exact (order_right_iff ga os1 os2 nm sz a cb e ty n nq q0 vs rs f). Qed.
Print Assumptions C69_order_right_iff.

(** Three markers from red to blue. *)
Definition three : vop := VAdd (NList ["a"; "b"; "c"]%string) (SzFloat 1) 1 red (Some blue) 2 3.
Example C69_exact_case : fresh two_geoms ([] ++ three :: []) viewer0 /\ fst (vstep two_geoms three (vrun two_geoms [] viewer0)) = Ok tt /\
  exists m, assoc "b" (z_markers (vrun two_geoms [three] viewer0)) = Some m /\ mk_rgba m = blend (1 / 2) blue red ++ [1].
Proof.
  assert (F : fresh two_geoms ([] ++ three :: []) viewer0).
  { cbn [fresh three app]. split; [|exact I]. intros _. split; [|intros s _ H; exact H]. repeat (constructor; [cbn; intros H; repeat (destruct H as [H|H]; [discriminate|]); exact H|]). constructor. }
  assert (O : fst (vstep two_geoms three (vrun two_geoms [] viewer0)) = Ok tt) by reflexivity.
  split; [exact F|]. split; [exact O|]. destruct (colour_exact two_geoms [] [] _ _ _ _ _ _ _ _ _ _ _ _ F O 1%nat "b"%string eq_refl eq_refl ltac:(lia)) as (m & A & B). exists m. split; [exact A|]. rewrite B. replace (INR (Z.to_nat 3 - 1 - 1) / INR (Z.to_nat 3 - 1)) with (1 / 2) by reflexivity. reflexivity.
Qed.

(** ** C72 *)
(** A visible geom coloured by its class is faded exactly once if and only if no other visible
    geom is coloured by that class, or fading twice makes no difference. *)
Theorem C72_faded_once_iff gg alpha ks gs g c k : 0 <= alpha -> In g gs -> visible gg ks g -> g_rgba g = None -> g_class g = Some k -> shown_color ks g = Some c -> let '(gs', ks') := paint_geoms gg alpha ks gs in
  exists g', In g' gs' /\ g_id g' = g_id g /\ (shown_color ks' g' = Some (mkCol (col_rgb c) (col_a c * alpha)) <-> List.length (borrowers gg ks k gs) = 1%nat \/ alpha = 1 \/ alpha = 0 \/ col_a c = 0).
Proof. exact (faded_once_iff gg alpha ks gs g c k). Qed.
Print Assumptions C72_faded_once_iff.

Example C72_faded_case : let ks := [mkK None (Some (mkCol [1; 0; 0] 1))] in let g := mkG 0 None (Some 0%nat) None 1 1 in let g2 := mkG 1 None (Some 0%nat) None 1 1 in
  In g [g; g2] /\ visible 2 ks g /\ shown_color ks g = Some (mkCol [1; 0; 0] 1) /\ List.length (borrowers 2 ks 0 [g; g2]) = 2%nat.
Proof. cbv zeta. split; [now left|]. split; [intros x H; discriminate|]. split; reflexivity. Qed.
