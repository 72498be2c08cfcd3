(** Concrete self-collision barriers. *)
From Verif Require Import Base Lin LinFacts Mjx Typing Component SpecComponent SpecJoint SpecHistory Rot Conf FrameJac Collide JaxComponents Witness.
From Verif Require Import SpecCollision SpecTree SpecShape SpecContact SpecSelf.
From Verif Require Import ComponentFacts ComponentFacts2 BindFacts BindFacts2 BindFacts3 CoreFacts CompThms BindThms CollisionPairs CollideFacts CollideFacts2 CollideFacts3 CollideFacts4 ConfCases.
Open Scope R_scope.

(** Replace geom types and contact dimensions. *)
Definition with_geoms (m : mjmodel) (tys cds : list Z) : mjmodel :=
  {| m_nq := m_nq m; m_nv := m_nv m; m_njnt := m_njnt m; m_nbody := m_nbody m; m_neq := m_neq m;
     m_jnt_type := m_jnt_type m; m_jnt_qposadr := m_jnt_qposadr m; m_jnt_dofadr := m_jnt_dofadr m;
     m_jnt_range := m_jnt_range m; m_body_weldid := m_body_weldid m; m_body_parentid := m_body_parentid m;
     m_body_rootid := m_body_rootid m; m_body_geomadr := m_body_geomadr m; m_body_geomnum := m_body_geomnum m;
     m_body_mass := m_body_mass m; m_geom_bodyid := m_geom_bodyid m; m_geom_contype := m_geom_contype m;
     m_geom_conaffinity := m_geom_conaffinity m; m_geom_type := tys; m_geom_dataid := m_geom_dataid m;
     m_geom_priority := m_geom_priority m; m_geom_condim := cds; m_site_bodyid := m_site_bodyid m;
     m_dof_bodyid := m_dof_bodyid m; m_eq_type := m_eq_type m; m_names := m_names m |}.

(** Four bodies in a row on slides along the x axis, with different geoms. *)
Definition slides (tys cds : list Z) : mjmodel := with_geoms (chain [JSlide; JSlide; JSlide; JSlide]) tys cds.
Definition spheres : mjmodel := slides [2; 2; 2; 2]%Z [3; 3; 3; 3]%Z.
Definition box_first : mjmodel := slides [6; 2; 2; 2]%Z [3; 3; 3; 3]%Z.
Definition mixed_dims : mjmodel := slides [2; 2; 2; 2]%Z [1; 1; 3; 1]%Z.
Definition sliding (m : mjmodel) : mjdata :=
  let n := m_nbody m in let g := List.length (m_geom_bodyid m) in let s := List.length (m_site_bodyid m) in
  {| d_qpos := [0; 0; 0; 0]; d_xpos := map (fun i => [INR i; 0; 0]) (seq 0 n); d_xmat := repeat id9 n; d_xquat := repeat [1; 0; 0; 0] n;
     d_xipos := map (fun i => [INR i; 0; 0]) (seq 0 n); d_geom_xpos := map (fun i => [INR i; 0; 0]) (seq 1 g); d_geom_xmat := repeat id9 g;
     d_site_xpos := repeat [0; 0; 0] s; d_site_xmat := repeat id9 s; d_subtree_com := repeat [1; 0; 0] n;
     d_cdof := repeat [0; 0; 0; 1; 0; 0] (m_nv m); d_efc_pos := []; d_efc_is_equality := []; d_efc_J := [] |}.
Lemma sliding_data tys cds : wf_data (slides tys cds) (sliding (slides tys cds)).
Proof. unfold wf_data, slides, with_geoms, chain, sliding. cbn. repeat split; repeat constructor. Qed.
Lemma slides_model tys cds : wf_model (slides tys cds).
Proof. exact (chain_model [JSlide; JSlide; JSlide; JSlide]). Qed.
Lemma slides_wf tys cds : List.length tys = 4%nat -> List.length cds = 4%nat -> wf_collision (slides tys cds).
Proof.
  intros H1 H2. split; [exact (chain_bodies [JSlide; JSlide; JSlide; JSlide])|]. unfold wf_geoms, slides, with_geoms. cbn. auto.
Qed.
(** Geom [g] is at x = g + 1, with radius 1/2: one contact per pair, on the x axis,
    or two contacts, the first one deeper. *)
Definition axis_contact (p : Z * Z) (extra : R) : contact :=
  mkCt (IZR (Z.abs (fst p - snd p)) - 1 + extra) (mkV (IZR (fst p + snd p) / 2 + 1) 0 0)
       (mkM3 (if (fst p <? snd p)%Z then 1 else -1) 0 0 0 (if (fst p <? snd p)%Z then 1 else -1) 0 0 0 1).
Definition one_contact : colltab := fun _ => Some (1%nat, fun _ _ _ p => [axis_contact p 0]).
Definition two_contacts : colltab := fun _ => Some (2%nat, fun _ _ _ p => [axis_contact p 1; axis_contact p 0]).
Definition coll_lib (T : colltab) : lib := mkL (1 / 1000) sliding (fun _ d => d) (fun _ d => d) (fun _ d => d) (fun _ _ => Err TypeError) T.
Lemma one_contact_ok m ps : full_table one_contact m ps.
Proof. split; [intros ty n f m' d k p [= <- <-]; reflexivity|]. intros p _. do 2 eexists. split; [reflexivity|lia]. Qed.
Lemma two_contacts_ok m ps : full_table two_contacts m ps.
Proof. split; [intros ty n f m' d k p [= <- <-]; reflexivity|]. intros p _. do 2 eexists. split; [reflexivity|lia]. Qed.

Definition guard_of (bs : list cbody) (n : Z) : comp := unwrap (new_self_collision "self" (tscalar 1) None 0 (1/4) bs [] n) (mkC (mkA "" None (tscalar 1) (fun x => x) (-1) None [] (XConstraint true true None CModelEq)) true None).
Definition guard_on (m : mjmodel) (bs : list cbody) (n : Z) : jaxc :=
  match fst (jax_component (history [OpModel m] (guard_of bs n))) with Ok j => j | Err _ => mkJ 0 m [] (fun x => x) [] (JConstraint true true [] JCModelEq) end.

Ltac guard_tac M bs n W := exists "self"%string, (tscalar 1), None, 0, bs, [], (guard_of bs n), [OpModel M]; split; [reflexivity|]; split; [constructor; [exact W|constructor]|]; split; [split; [vm_compute; reflexivity|exact I]|vm_compute; reflexivity].
Definition b134 : list cbody := [CBInt 1; CBInt 3; CBInt 4].
Definition b13 : list cbody := [CBInt 1; CBInt 3].
Lemma spheres_guard : self_barrier (1/4) 1 (guard_on spheres b134 1) /\ checked_pairs (guard_on spheres b134 1) [(0, 2); (0, 3)]%Z /\ j_model (guard_on spheres b134 1) = spheres.
Proof.
  split; [|split; [do 3 eexists; vm_compute; reflexivity|reflexivity]].
  unfold self_barrier. guard_tac spheres b134 1%Z (slides_wf [2; 2; 2; 2]%Z [3; 3; 3; 3]%Z eq_refl eq_refl).
Qed.
Lemma box_guard : self_barrier (1/4) 1 (guard_on box_first b13 1) /\ checked_pairs (guard_on box_first b13 1) [(0, 2)]%Z /\ j_model (guard_on box_first b13 1) = box_first.
Proof.
  split; [|split; [do 3 eexists; vm_compute; reflexivity|reflexivity]].
  unfold self_barrier. guard_tac box_first b13 1%Z (slides_wf [6; 2; 2; 2]%Z [3; 3; 3; 3]%Z eq_refl eq_refl).
Qed.
Lemma mixed_guard : self_barrier (1/4) 1 (guard_on mixed_dims b134 1) /\ checked_pairs (guard_on mixed_dims b134 1) [(0, 2); (0, 3)]%Z /\ j_model (guard_on mixed_dims b134 1) = mixed_dims.
Proof.
  split; [|split; [do 3 eexists; vm_compute; reflexivity|reflexivity]].
  unfold self_barrier. guard_tac mixed_dims b134 1%Z (slides_wf [2; 2; 2; 2]%Z [1; 1; 3; 1]%Z eq_refl eq_refl).
Qed.
Lemma empty_guard : self_barrier (1/4) (-1) (guard_on spheres [CBInt 1] (-1)) /\ checked_pairs (guard_on spheres [CBInt 1] (-1)) [] /\ j_dim (guard_on spheres [CBInt 1] (-1)) = 0%Z.
Proof.
  split; [|split; [do 3 eexists; vm_compute; reflexivity|reflexivity]].
  unfold self_barrier. guard_tac spheres [CBInt 1] (-1)%Z (slides_wf [2; 2; 2; 2]%Z [3; 3; 3; 3]%Z eq_refl eq_refl).
Qed.

(** Dof [k] of the slides moves the bodies [k + 1], ..., 4. *)
Lemma not_moved tys cds k b : (b <= k)%nat -> (k < 4)%nat -> ~ in_subtree (slides tys cds) (dof_body (slides tys cds) k) b.
Proof.
  intros Hb Hk H. assert (E : dof_body (slides tys cds) k = S k) by (do 4 (destruct k as [|k]; [reflexivity|]); lia). rewrite E in H. clear E.
  induction H as [|i H0 H IH] using in_subtree_ind; [lia|].
  apply IH. assert (parent_body (slides tys cds) i = pred i); [|lia]. unfold parent_body. do 5 (destruct i as [|i]; [reflexivity|]). lia.
Qed.
Lemma slides_contacts m d ps : all_contacts (coll_lib one_contact) m d ps (map (fun p => (orient m p, axis_contact (orient m p) 0)) ps).
Proof.
  exists (map (fun p => [(orient m p, axis_contact (orient m p) 0)]) ps). split; [|induction ps; cbn; congruence].
  induction ps as [|p ps IH]; cbn; constructor; [|exact IH]. exists 1%nat, (fun _ _ _ p => [axis_contact p 0]), (key_of m (orient m p)). repeat split; auto.
Qed.
Lemma slides_contacts2 m d ps : all_contacts (coll_lib two_contacts) m d ps (flat_map (fun p => [(orient m p, axis_contact (orient m p) 1); (orient m p, axis_contact (orient m p) 0)]) ps).
Proof.
  exists (map (fun p => [(orient m p, axis_contact (orient m p) 1); (orient m p, axis_contact (orient m p) 0)]) ps). split; [|induction ps; cbn; congruence].
  induction ps as [|p ps IH]; cbn; constructor; [|exact IH]. exists 2%nat, (fun _ _ _ p => [axis_contact p 1; axis_contact p 0]), (key_of m (orient m p)). repeat split; auto.
Qed.
Lemma smallest_second a b : b < a -> smallest [a; b] 1 = Ok [1%nat].
Proof. intros H. unfold smallest, argsort. cbn. destruct (Rle_dec a b); [lra|reflexivity]. Qed.
Ltac oriented Hx := change (orient mixed_dims (0, 2)%Z) with (0, 2)%Z in Hx; change (orient mixed_dims (0, 3)%Z) with (0, 3)%Z in Hx; change (orient spheres (0, 2)%Z) with (0, 2)%Z in Hx; change (orient spheres (0, 3)%Z) with (0, 3)%Z in Hx.
Lemma box_wrong : exists h J, let j := guard_on box_first b13 1 in let L := coll_lib one_contact in
  call L j (sliding box_first) = Ok h /\ jacobian L j (sliding box_first) = Ok J /\ ~ rows_match L box_first (sliding box_first) [(0, 2)]%Z (1/4) h J.
Proof.
  cbv zeta. set (c := axis_contact (2, 0)%Z 0).
  destruct (row_is_rate box_first (sliding box_first) (slides_model _ _) (sliding_data _ _) c (0, 2)%Z 1%Z 3%Z eq_refl eq_refl ltac:(split; cbn; lia) ltac:(split; cbn; lia)) as (row & Er & Hw).
  assert (E : compute_collision_pairs one_contact box_first (sliding box_first) [(0, 2)]%Z = Ok (arrays [((2, 0)%Z, c)])) by reflexivity.
  exists [ct_dist c - 1/4], [row]. split; [reflexivity|]. split.
  - change (jac_self (coll_lib one_contact) box_first [(0, 2)]%Z 1 (sliding box_first) = Ok [row]). unfold jac_self. cbn [coll_lib l_coll]. rewrite E.
    change (bind (jac_self_row box_first (sliding box_first) (ct_dist c) (ct_pos c) (ct_normal c) 1 3) (fun J => Ok [J]) = Ok [row]). rewrite Er. reflexivity.
  - intros [_ H]. specialize (H _ 0%nat _ _ (slides_contacts _ _ _) eq_refl eq_refl). destruct H as (g & c' & Hin & _ & H). destruct Hin as [Eg|[]]. injection Eg as <- <-.
    pose proof (proj2 H 2%nat _ _ ltac:(cbn; lia) (or_intror (conj (st_self _ 3) eq_refl)) (or_introl (conj (not_moved [6; 2; 2; 2]%Z [3; 3; 3; 3]%Z 2 1 ltac:(lia) ltac:(lia)) eq_refl))) as A.
    pose proof (proj2 Hw 2%nat _ _ ltac:(cbn; lia) (or_introl (conj (not_moved [6; 2; 2; 2]%Z [3; 3; 3; 3]%Z 2 1 ltac:(lia) ltac:(lia)) eq_refl)) (or_intror (conj (st_self _ 3) eq_refl))) as B.
    rewrite A in B. clear - B. subst c. change (orient box_first (0, 2)%Z) with (2, 0)%Z in B. change (orient mixed_dims (0, 2)%Z) with (0, 2)%Z in B. change (orient spheres (0, 2)%Z) with (0, 2)%Z in B. unfold dot, vmul, vsub, vadd, vmap2, ct_normal, axis_contact, v3_list, vzero in B. cbn in B. lra.
Qed.
Lemma mixed_wrong : exists h J, let j := guard_on mixed_dims b134 1 in let L := coll_lib one_contact in
  call L j (sliding mixed_dims) = Ok h /\ jacobian L j (sliding mixed_dims) = Ok J /\ ~ rows_match L mixed_dims (sliding mixed_dims) [(0, 2); (0, 3)]%Z (1/4) h J.
Proof.
  cbv zeta. set (l := [((0, 3)%Z, axis_contact (0, 3)%Z 0); ((0, 2)%Z, axis_contact (0, 2)%Z 0)]). set (c := axis_contact (0, 2)%Z 0).
  destruct (row_is_rate mixed_dims (sliding mixed_dims) (slides_model _ _) (sliding_data _ _) c (0, 3)%Z 1%Z 4%Z eq_refl eq_refl ltac:(split; cbn; lia) ltac:(split; cbn; lia)) as (row & Er & Hw).
  assert (E : compute_collision_pairs one_contact mixed_dims (sliding mixed_dims) [(0, 2); (0, 3)]%Z = Ok (arrays l)) by reflexivity.
  assert (S : smallest (cs_dist (arrays l)) 1 = Ok [1%nat]) by (cbn; apply smallest_second; lra).
  exists [ct_dist c - 1/4], [row]. split; [|split].
  - change (call_self (coll_lib one_contact) mixed_dims [1/4] [(0, 2); (0, 3)]%Z 1 (sliding mixed_dims) = Ok [ct_dist c - 1/4]).
    unfold call_self. cbn [coll_lib l_coll]. rewrite E. cbn [bind]. rewrite S. reflexivity.
  - change (jac_self (coll_lib one_contact) mixed_dims [(0, 2); (0, 3)]%Z 1 (sliding mixed_dims) = Ok [row]).
    unfold jac_self. cbn [coll_lib l_coll]. rewrite E. cbn [bind]. rewrite S.
    change (bind (jac_self_row mixed_dims (sliding mixed_dims) (ct_dist c) (ct_pos c) (ct_normal c) 1 4) (fun J => Ok [J]) = Ok [row]). rewrite Er. reflexivity.
  - intros [_ H]. specialize (H _ 0%nat _ _ (slides_contacts _ _ _) eq_refl eq_refl). destruct H as (g & c' & Hin & Hx & H). destruct Hin as [Eg|[Eg|[]]]; injection Eg as <- <-; [clear Hx|oriented Hx; cbn in Hx; lra].
    pose proof (proj2 H 3%nat _ _ ltac:(cbn; lia) (or_introl (conj (not_moved [2; 2; 2; 2]%Z [1; 1; 3; 1]%Z 3 1 ltac:(lia) ltac:(lia)) eq_refl)) (or_introl (conj (not_moved [2; 2; 2; 2]%Z [1; 1; 3; 1]%Z 3 3 ltac:(lia) ltac:(lia)) eq_refl))) as A.
    pose proof (proj2 Hw 3%nat _ _ ltac:(cbn; lia) (or_introl (conj (not_moved [2; 2; 2; 2]%Z [1; 1; 3; 1]%Z 3 1 ltac:(lia) ltac:(lia)) eq_refl)) (or_intror (conj (st_self _ 4) eq_refl))) as B.
    rewrite A in B. clear - B. subst c. change (orient box_first (0, 2)%Z) with (2, 0)%Z in B. change (orient mixed_dims (0, 2)%Z) with (0, 2)%Z in B. change (orient spheres (0, 2)%Z) with (0, 2)%Z in B. unfold dot, vmul, vsub, vadd, vmap2, ct_normal, axis_contact, v3_list, vzero in B. cbn in B. lra.
Qed.
(** Two contacts per pair: the second contact of the first pair is taken to belong to the second pair. *)
Lemma smallest_of_four a b c e : b < a -> b < c -> b < e -> smallest [a; b; c; e] 1 = Ok [1%nat].
Proof.
  intros H1 H2 H3. unfold smallest, argsort. cbn. destruct (Rle_dec c e); cbn; destruct (Rle_dec b _); try lra; cbn; destruct (Rle_dec a b); try lra; reflexivity.
Qed.
Lemma double_wrong : exists h J, let j := guard_on spheres b134 1 in let L := coll_lib two_contacts in
  call L j (sliding spheres) = Ok h /\ jacobian L j (sliding spheres) = Ok J /\ ~ rows_match L spheres (sliding spheres) [(0, 2); (0, 3)]%Z (1/4) h J.
Proof.
  cbv zeta. set (c := axis_contact (0, 2)%Z 0). set (l := [((0, 2)%Z, axis_contact (0, 2)%Z 1); ((0, 2)%Z, c); ((0, 3)%Z, axis_contact (0, 3)%Z 1); ((0, 3)%Z, axis_contact (0, 3)%Z 0)]).
  destruct (row_is_rate spheres (sliding spheres) (slides_model _ _) (sliding_data _ _) c (0, 3)%Z 1%Z 4%Z eq_refl eq_refl ltac:(split; cbn; lia) ltac:(split; cbn; lia)) as (row & Er & Hw).
  assert (E : compute_collision_pairs two_contacts spheres (sliding spheres) [(0, 2); (0, 3)]%Z = Ok (arrays l)) by reflexivity.
  assert (S : smallest (cs_dist (arrays l)) 1 = Ok [1%nat]) by (cbn; apply smallest_of_four; lra).
  exists [ct_dist c - 1/4], [row]. split; [|split].
  - change (call_self (coll_lib two_contacts) spheres [1/4] [(0, 2); (0, 3)]%Z 1 (sliding spheres) = Ok [ct_dist c - 1/4]).
    unfold call_self. cbn [coll_lib l_coll]. rewrite E. cbn [bind]. rewrite S. reflexivity.
  - change (jac_self (coll_lib two_contacts) spheres [(0, 2); (0, 3)]%Z 1 (sliding spheres) = Ok [row]).
    unfold jac_self. cbn [coll_lib l_coll]. rewrite E. cbn [bind]. rewrite S.
    change (bind (jac_self_row spheres (sliding spheres) (ct_dist c) (ct_pos c) (ct_normal c) 1 4) (fun J => Ok [J]) = Ok [row]). rewrite Er. reflexivity.
  - intros [_ H]. specialize (H _ 0%nat _ _ (slides_contacts2 _ _ _) eq_refl eq_refl). destruct H as (g & c' & Hin & Hx & H). destruct Hin as [Eg|[Eg|[Eg|[Eg|[]]]]]; injection Eg as <- <-; [oriented Hx; cbn in Hx; lra|clear Hx|oriented Hx; cbn in Hx; lra|oriented Hx; cbn in Hx; lra].
    pose proof (proj2 H 3%nat _ _ ltac:(cbn; lia) (or_introl (conj (not_moved [2; 2; 2; 2]%Z [3; 3; 3; 3]%Z 3 1 ltac:(lia) ltac:(lia)) eq_refl)) (or_introl (conj (not_moved [2; 2; 2; 2]%Z [3; 3; 3; 3]%Z 3 3 ltac:(lia) ltac:(lia)) eq_refl))) as A.
    pose proof (proj2 Hw 3%nat _ _ ltac:(cbn; lia) (or_introl (conj (not_moved [2; 2; 2; 2]%Z [3; 3; 3; 3]%Z 3 1 ltac:(lia) ltac:(lia)) eq_refl)) (or_intror (conj (st_self _ 4) eq_refl))) as B.
    rewrite A in B. clear - B. subst c. change (orient box_first (0, 2)%Z) with (2, 0)%Z in B. change (orient mixed_dims (0, 2)%Z) with (0, 2)%Z in B. change (orient spheres (0, 2)%Z) with (0, 2)%Z in B. unfold dot, vmul, vsub, vadd, vmap2, ct_normal, axis_contact, v3_list, vzero in B. cbn in B. lra.
Qed.
Lemma spheres_one_sort : one_sort (coll_lib one_contact) spheres [(0, 2); (0, 3)]%Z.
Proof.
  split; [|split].
  - intros p [<-|[<-|[]]]; reflexivity.
  - intros p q [<-|[<-|[]]] [<-|[<-|[]]]; repeat split.
  - intros p _. eexists. reflexivity.
Qed.
Lemma smallest_first a b : a < b -> smallest [a; b] 1 = Ok [0%nat].
Proof. intros H. unfold smallest, argsort. cbn. destruct (Rle_dec a b); [reflexivity|lra]. Qed.
Lemma spheres_call : call (coll_lib one_contact) (guard_on spheres b134 1) (sliding spheres) = Ok [ct_dist (axis_contact (0, 2)%Z 0) - 1/4].
Proof.
  set (l := [((0, 2)%Z, axis_contact (0, 2)%Z 0); ((0, 3)%Z, axis_contact (0, 3)%Z 0)]).
  assert (E : compute_collision_pairs one_contact spheres (sliding spheres) [(0, 2); (0, 3)]%Z = Ok (arrays l)) by reflexivity.
  assert (S : smallest (cs_dist (arrays l)) 1 = Ok [0%nat]) by (cbn; apply smallest_first; lra).
  change (call_self (coll_lib one_contact) spheres [1/4] [(0, 2); (0, 3)]%Z 1 (sliding spheres) = Ok [ct_dist (axis_contact (0, 2)%Z 0) - 1/4]).
  unfold call_self. cbn [coll_lib l_coll]. rewrite E. cbn [bind]. rewrite S. reflexivity.
Qed.

(** ** n_closest_pairs = -1 and a second model: the count stays that of the first. *)
Definition reach : list cbody := [CBInt 1; CBStr "tip"].
Definition rebound : jaxc :=
  match fst (jax_component (history [OpModel arm2; OpModel arm4] (guard_of reach (-1)))) with Ok j => j | Err _ => mkJ 0 arm4 [] (fun x => x) [] (JConstraint true true [] JCModelEq) end.
Lemma chain_geoms ts : wf_geoms (chain ts).
Proof. unfold wf_geoms, chain. cbn. unfold zs. rewrite !repeat_length, map_length, seq_length. auto. Qed.
Lemma rebound_case : self_barrier (1/4) (-1) rebound /\ checked_pairs rebound [(0, 3)]%Z /\ j_model rebound = arm4 /\
  j_dim rebound = 0%Z /\ forall d, call (coll_lib one_contact) rebound d = Ok [].
Proof.
  assert (B : self_barrier (1/4) (-1) rebound).
  { exists "self"%string, (tscalar 1), None, 0, reach, [], (guard_of reach (-1)), [OpModel arm2; OpModel arm4]. split; [reflexivity|].
    split; [constructor; [split; [apply chain_bodies|apply chain_geoms]|constructor; [split; [apply chain_bodies|apply chain_geoms]|constructor]]|].
    split; [split; [vm_compute; reflexivity|split; [vm_compute; reflexivity|exact I]]|vm_compute; reflexivity]. }
  assert (P : checked_pairs rebound [(0, 3)]%Z) by (do 3 eexists; vm_compute; reflexivity).
  split; [exact B|]. split; [exact P|]. split; [reflexivity|]. split; [reflexivity|]. intros d. reflexivity.
Qed.
