(** Concrete models and data used to show that hypotheses are satisfiable and
    to exhibit counterexamples. *)
From Verif Require Import Base Lin Mjx Typing Component SpecJoint SpecComponent SpecCollision.
Open Scope nat_scope.

(** A serial chain with one joint per body: body 0 is the world, body [i] hangs
    on body [i-1] by joint [i-1] and carries geom [i-1].  The last body is called
    "tip", all geoms collide with everything. *)
Definition zs (l : list nat) : list Z := map Z.of_nat l.
Definition chain (ts : list jnttype) : mjmodel :=
  let n := List.length ts in
  {| m_nq := total jnt_nq ts; m_nv := total jnt_nv ts; m_njnt := n; m_nbody := S n; m_neq := 0;
     m_jnt_type := ts; m_jnt_qposadr := adrs jnt_nq 0 ts; m_jnt_dofadr := adrs jnt_nv 0 ts;
     m_jnt_range := map (fun i => ((- INR (S i))%R, INR (S i))) (seq 0 n);
     m_body_weldid := zs (seq 0 (S n));
     m_body_parentid := zs (0 :: seq 0 n);
     m_body_rootid := zs (0 :: repeat 1 n);
     m_body_geomadr := (-1)%Z :: zs (seq 0 n);
     m_body_geomnum := 0%Z :: repeat 1%Z n;
     m_body_mass := 0%R :: repeat 1%R n;
     m_geom_bodyid := zs (seq 1 n);
     m_geom_contype := repeat 1%Z n; m_geom_conaffinity := repeat 1%Z n;
     m_geom_type := repeat 2%Z n; m_geom_dataid := repeat (-1)%Z n;
     m_geom_priority := repeat 0%Z n; m_geom_condim := repeat 3%Z n;
     m_site_bodyid := [];
     m_dof_bodyid := flat_map (fun p => repeat (Z.of_nat (S (fst p))) (jnt_nv (snd p))) (combine (seq 0 n) ts);
     m_eq_type := [];
     m_names := [(OBody, "world"%string, 0%Z); (OBody, "tip"%string, Z.of_nat n)] |}.
Lemma chain_joints ts : wf_joints (chain ts).
Proof.
  unfold wf_joints, chain. cbn [m_njnt m_jnt_type m_jnt_qposadr m_jnt_dofadr m_nq m_nv m_jnt_range].
  rewrite map_length, seq_length. repeat split.
Qed.

(** The same with equality constraints. *)
Definition with_eq (m : mjmodel) (es : list eqtype) : mjmodel :=
  {| m_nq := m_nq m; m_nv := m_nv m; m_njnt := m_njnt m; m_nbody := m_nbody m; m_neq := List.length es;
     m_jnt_type := m_jnt_type m; m_jnt_qposadr := m_jnt_qposadr m; m_jnt_dofadr := m_jnt_dofadr m;
     m_jnt_range := m_jnt_range m; m_body_weldid := m_body_weldid m; m_body_parentid := m_body_parentid m;
     m_body_rootid := m_body_rootid m; m_body_geomadr := m_body_geomadr m; m_body_geomnum := m_body_geomnum m;
     m_body_mass := m_body_mass m; m_geom_bodyid := m_geom_bodyid m; m_geom_contype := m_geom_contype m;
     m_geom_conaffinity := m_geom_conaffinity m; m_geom_type := m_geom_type m; m_geom_dataid := m_geom_dataid m;
     m_geom_priority := m_geom_priority m; m_geom_condim := m_geom_condim m; m_site_bodyid := m_site_bodyid m;
     m_dof_bodyid := m_dof_bodyid m; m_eq_type := es; m_names := m_names m |}.
(** The same with another name table. *)
Definition with_names (m : mjmodel) (ns : list (objtype * string * Z)) : mjmodel :=
  {| m_nq := m_nq m; m_nv := m_nv m; m_njnt := m_njnt m; m_nbody := m_nbody m; m_neq := m_neq m;
     m_jnt_type := m_jnt_type m; m_jnt_qposadr := m_jnt_qposadr m; m_jnt_dofadr := m_jnt_dofadr m;
     m_jnt_range := m_jnt_range m; m_body_weldid := m_body_weldid m; m_body_parentid := m_body_parentid m;
     m_body_rootid := m_body_rootid m; m_body_geomadr := m_body_geomadr m; m_body_geomnum := m_body_geomnum m;
     m_body_mass := m_body_mass m; m_geom_bodyid := m_geom_bodyid m; m_geom_contype := m_geom_contype m;
     m_geom_conaffinity := m_geom_conaffinity m; m_geom_type := m_geom_type m; m_geom_dataid := m_geom_dataid m;
     m_geom_priority := m_geom_priority m; m_geom_condim := m_geom_condim m; m_site_bodyid := m_site_bodyid m;
     m_dof_bodyid := m_dof_bodyid m; m_eq_type := m_eq_type m; m_names := ns |}.

(** A two-link planar arm, a four-link arm, a floating base with two joints. *)
Definition arm2 : mjmodel := chain [JHinge; JHinge].
Definition arm4 : mjmodel := chain [JHinge; JHinge; JHinge; JSlide].
Definition floating : mjmodel := chain [JFree; JHinge; JBall; JSlide].

Lemma zs_nth l i : (0 <= i < Z.of_nat (List.length l))%Z -> ent (zs l) i = Z.of_nat (nth (Z.to_nat i) l 0).
Proof. intros H. unfold ent, zs. change 0%Z with (Z.of_nat 0). now rewrite map_nth. Qed.
Lemma chain_bodies ts : wf_bodies (chain ts).
Proof.
  assert (Ln : forall l, List.length (zs l) = List.length l) by (intros; apply map_length).
  unfold wf_bodies, is_body, is_geom, chain.
  cbn [m_nbody m_body_weldid m_body_parentid m_body_geomadr m_body_geomnum m_geom_contype m_geom_conaffinity m_geom_bodyid].
  rewrite !Ln, !repeat_length, !seq_length. repeat (split; [cbn [List.length]; rewrite ?Ln, ?seq_length, ?repeat_length; reflexivity|]).
  set (n := List.length ts). split.
  - intros b Hb. rewrite !zs_nth by (cbn [List.length]; rewrite ?seq_length; lia). split.
    + rewrite seq_nth by lia. lia.
    + destruct (Z.to_nat b) as [|k] eqn:E; cbn [nth]; [lia|]. rewrite seq_nth by lia. lia.
  - intros b g Hb. assert (Hc : b = 0%Z \/ exists k, b = Z.of_nat (S k) /\ k < n).
    { destruct (Z.eq_dec b 0); [now left|right]. exists (Z.to_nat (b - 1)). split; lia. }
    destruct Hc as [->|(k & -> & Hk)].
    + cbn. split; [lia|]. intros [Hg He]. exfalso. rewrite zs_nth in He by (rewrite seq_length; lia). rewrite seq_nth in He by lia. lia.
    + unfold ent at 1 2 3. rewrite Nat2Z.id. cbn [nth].
      assert (E1 : nth k (zs (seq 0 n)) 0%Z = Z.of_nat k).
      { unfold zs. change 0%Z with (Z.of_nat 0). rewrite map_nth, seq_nth by exact Hk. reflexivity. }
      assert (E2 : nth k (repeat 1%Z n) 0%Z = 1%Z).
      { rewrite nth_indep with (d' := 1%Z) by (rewrite repeat_length; exact Hk). apply nth_repeat. }
      rewrite E1, E2. split.
      * intros Hg. assert (g = Z.of_nat k) by lia. subst g. split; [lia|].
        rewrite zs_nth by (rewrite seq_length; lia). rewrite Nat2Z.id, seq_nth by exact Hk. lia.
      * intros [Hg He]. rewrite zs_nth in He by (rewrite seq_length; lia). rewrite seq_nth in He by lia. lia.
Qed.
Lemma chain_names ts : wf_names (chain ts).
Proof.
  split; cbn; intros.
  - destruct H as [H|[H|[]]]; injection H; intros; subst; lia.
  - destruct H as [H|[H|[]]], H0 as [H0|[H0|[]]]; congruence.
Qed.

(** Unwrap a construction that is known to succeed. *)
Definition unwrap (r : res comp) (d : comp) : comp := match r with Ok c => c | Err _ => d end.
