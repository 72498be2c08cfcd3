(** C38, C39, C41, C42: geom pairs, contacts and the self-collision barrier. *)
From Verif Require Import Base Lin Mjx Typing Component SpecComponent SpecHistory Witness Rot FrameJac Collide JaxComponents SpecCollision SpecTree SpecShape SpecContact SpecSelf CollideFacts CollideFacts2 CollideFacts3 CollideFacts4 CollideCases.
Open Scope R_scope.

(** ** C41 *)
Theorem C41_grouping_is_a_partition m ps : wf_geoms m -> Forall (geom_pair m) ps ->
  exists gs, geom_groups m ps = Ok gs /\
    Permutation (List.concat (map snd gs)) (map (orient m) ps) /\
    (forall k g, In (k, g) gs -> g <> [] /\ forall p, In p g -> key_describes m k p /\ picks (same_sort m p) (map (orient m) ps) g).
Proof. exact (grouping m ps). Qed.
Print Assumptions C41_grouping_is_a_partition.
Example C41_case : wf_geoms mixed_dims /\ Forall (geom_pair mixed_dims) [(0, 2); (0, 3); (1, 2); (0, 2)]%Z /\
  exists k1 k2, geom_groups mixed_dims [(0, 2); (0, 3); (1, 2); (0, 2)]%Z = Ok [(k1, [(0, 2); (1, 2); (0, 2)]%Z); (k2, [(0, 3)]%Z)].
Proof. split; [repeat split|]. split; [repeat constructor; vm_compute; congruence|]. do 2 eexists. reflexivity. Qed.

(** ** C42 *)
Theorem C42_contacts_stay_attached T m d ps : wf_geoms m -> Forall (geom_pair m) ps -> full_table T m ps ->
  exists cs l rs, compute_collision_pairs T m d ps = Ok cs /\ side_by_side cs l /\
    Forall2 (reports T m d) (map (orient m) ps) rs /\ Permutation l (List.concat rs) /\
    StronglySorted Z.le (map (fun x => contact_dim m (fst x)) l).
Proof. exact (contacts_attached T m d ps). Qed.
Print Assumptions C42_contacts_stay_attached.
Theorem C42_one_distance_per_pair T m d ps : wf_geoms m -> Forall (geom_pair m) ps -> full_table T m ps -> ps <> [] ->
  Forall (fun p => ent (m_geom_type m) (fst (orient m p)) <> height_field) ps ->
  exists ds pos frames rs, get_distance T m d ps = Ok (ds, pos, frames) /\
    Forall2 (reports T m d) (map (orient m) ps) rs /\ Forall2 (fun r x => minimum_of (map (fun c => ct_dist (snd c)) r) x) rs ds /\
    pos = map (fun c => ct_pos (snd c)) (List.concat rs) /\ frames = map (fun c => ct_frame (snd c)) (List.concat rs).
Proof. exact (distances T m d ps). Qed.
Print Assumptions C42_one_distance_per_pair.
Example C42_case : wf_geoms box_first /\ Forall (geom_pair box_first) [(0, 2); (1, 3)]%Z /\ full_table two_contacts box_first [(0, 2); (1, 3)]%Z /\
  Forall (fun p => ent (m_geom_type box_first) (fst (orient box_first p)) <> height_field) [(0, 2); (1, 3)]%Z /\
  compute_collision_pairs two_contacts box_first (sliding box_first) [(0, 2); (1, 3)]%Z =
    Ok (arrays [((2, 0)%Z, axis_contact (2, 0)%Z 1); ((2, 0)%Z, axis_contact (2, 0)%Z 0); ((1, 3)%Z, axis_contact (1, 3)%Z 1); ((1, 3)%Z, axis_contact (1, 3)%Z 0)]).
Proof.
  split; [repeat split|]. split; [repeat constructor; vm_compute; congruence|]. split; [apply two_contacts_ok|]. split; [|reflexivity].
  constructor; [vm_compute; discriminate|constructor; [vm_compute; discriminate|constructor]].
Qed.
(** A pair is refused when its geom of the smaller type number is a height field. *)
Theorem C42_height_fields_refused T m d ps p : wf_geoms m -> Forall (geom_pair m) ps -> full_table T m ps ->
  In p ps -> ent (m_geom_type m) (fst (orient m p)) = height_field -> get_distance T m d ps = Err NotImplementedError.
Proof. exact (hfield_refused T m d ps p). Qed.
Print Assumptions C42_height_fields_refused.
Example C42_refused_case : let m := slides [6; 1; 2; 2]%Z [3; 3; 3; 3]%Z in let ps := [(0, 2); (2, 1)]%Z in
  wf_geoms m /\ Forall (geom_pair m) ps /\ full_table one_contact m ps /\ In (2, 1)%Z ps /\ ent (m_geom_type m) (fst (orient m (2, 1)%Z)) = height_field.
Proof. cbn zeta. split; [repeat split|]. split; [repeat constructor; vm_compute; congruence|]. split; [apply one_contact_ok|]. split; [cbn; auto|reflexivity]. Qed.
(** A plane first in the pair is measured like anything else. *)
Example C42_plane_case : let m := slides [0; 2; 2; 2]%Z [3; 3; 3; 3]%Z in
  exists ds pos frames, get_distance one_contact m (sliding m) [(0, 2)]%Z = Ok (ds, pos, frames) /\ List.length ds = 1%nat.
Proof. cbn zeta. do 3 eexists. split; reflexivity. Qed.

(** ** C38 *)
Theorem C38_value_is_the_n_smallest_distances L dm n j d ps : self_barrier dm n j -> checked_pairs j ps -> full_table (l_coll L) (j_model j) ps ->
  exists l, all_contacts L (j_model j) d ps l /\
    ((j_dim j <= Z.of_nat (List.length l))%Z ->
       exists s, n_smallest (Z.to_nat (j_dim j)) (distances_of l) s /\ call L j d = Ok (map (fun x => (x - dm)%R) s)) /\
    ((Z.of_nat (List.length l) < j_dim j)%Z -> call L j d = Err ValueError).
Proof. exact (self_value L dm n j d ps). Qed.
Print Assumptions C38_value_is_the_n_smallest_distances.
Theorem C38_nonnegative_iff_all_clear L dm n j d ps l h : self_barrier dm n j -> checked_pairs j ps -> full_table (l_coll L) (j_model j) ps ->
  all_contacts L (j_model j) d ps l -> (1 <= j_dim j)%Z -> call L j d = Ok h ->
  (Forall (fun x => (0 <= x)%R) h <-> Forall (fun x => (dm <= x)%R) (distances_of l)).
Proof. exact (self_nonneg L dm n j d ps l h). Qed.
Print Assumptions C38_nonnegative_iff_all_clear.
Theorem C38_requested_number dm n j : self_barrier dm n j -> n <> (-1)%Z -> j_dim j = n.
Proof. exact (fun H => proj1 (proj2 (proj2 (self_barrier_facts dm n j H)))). Qed.
Print Assumptions C38_requested_number.
Theorem C38_minus_one_means_all_pairs_partial dm j ps : self_barrier_bound_once dm (-1) j -> checked_pairs j ps -> j_dim j = Z.of_nat (List.length ps).
Proof. exact (self_all_pairs dm j ps). Qed.
Print Assumptions C38_minus_one_means_all_pairs_partial.
(** Not proved, because false: the same after binding a second model.  The count of
    the first model is kept: here it is 0, and the barrier checks nothing although
    there is a pair to check. *)
Theorem C38_minus_one_after_second_binding_refuted : exists dm j ps L, self_barrier dm (-1) j /\ checked_pairs j ps /\ List.length ps = 1%nat /\
  j_dim j = 0%Z /\ forall d, call L j d = Ok [].
Proof.
  exact (ex_intro _ _ (ex_intro _ rebound (ex_intro _ _ (ex_intro _ (coll_lib one_contact)
    (conj (proj1 rebound_case) (conj (proj1 (proj2 rebound_case)) (conj eq_refl (proj2 (proj2 (proj2 rebound_case)))))))))).
Qed.
Print Assumptions C38_minus_one_after_second_binding_refuted.
Example C38_case : let L := coll_lib one_contact in let j := guard_on spheres b134 1 in
  self_barrier (1/4) 1 j /\ checked_pairs j [(0, 2); (0, 3)]%Z /\ full_table (l_coll L) (j_model j) [(0, 2); (0, 3)]%Z /\
  (1 <= j_dim j)%Z /\ call L j (sliding spheres) = Ok [ct_dist (axis_contact (0, 2)%Z 0) - 1/4].
Proof.
  cbv zeta. split; [apply spheres_guard|]. split; [apply spheres_guard|]. split; [apply one_contact_ok|]. split; [vm_compute; discriminate|exact spheres_call].
Qed.

(** ** C39.  Proved when all pairs are of one sort, with the geoms of each pair
    already in type order and one contact per pair; false otherwise. *)
Theorem C39_rows_belong_to_their_contacts_partial L dm n j d ps h : self_barrier dm n j -> checked_pairs j ps -> full_table (l_coll L) (j_model j) ps ->
  wf_model (j_model j) -> wf_data (j_model j) d -> one_sort L (j_model j) ps -> ps <> [] -> call L j d = Ok h ->
  exists J, jacobian L j d = Ok J /\ is_mat (List.length h) (m_nv (j_model j)) J /\ rows_match L (j_model j) d ps dm h J.
Proof. exact (self_rows L dm n j d ps h). Qed.
Print Assumptions C39_rows_belong_to_their_contacts_partial.
Example C39_case : let L := coll_lib one_contact in let j := guard_on spheres b134 1 in
  self_barrier (1/4) 1 j /\ checked_pairs j [(0, 2); (0, 3)]%Z /\ wf_model (j_model j) /\ wf_data (j_model j) (sliding spheres) /\
  one_sort L (j_model j) [(0, 2); (0, 3)]%Z /\ exists h, call L j (sliding spheres) = Ok h.
Proof.
  cbv zeta. split; [apply spheres_guard|]. split; [apply spheres_guard|]. split; [exact (slides_model [2; 2; 2; 2]%Z [3; 3; 3; 3]%Z)|]. split; [exact (sliding_data [2; 2; 2; 2]%Z [3; 3; 3; 3]%Z)|].
  split; [exact spheres_one_sort|]. eexists. exact spheres_call.
Qed.
(** A single pair whose first geom has the larger type: the contact is reported for
    the swapped pair, the bodies are not swapped. *)
Theorem C39_swapped_geoms_refuted : exists L dm n j d ps h J, self_barrier dm n j /\ checked_pairs j ps /\ full_table (l_coll L) (j_model j) ps /\
  wf_model (j_model j) /\ wf_data (j_model j) d /\ List.length ps = 1%nat /\ call L j d = Ok h /\ jacobian L j d = Ok J /\ ~ rows_match L (j_model j) d ps dm h J.
Proof.
  exact (let '(ex_intro _ h (ex_intro _ J X)) := box_wrong in
    ex_intro _ (coll_lib one_contact) (ex_intro _ (1/4) (ex_intro _ 1%Z (ex_intro _ (guard_on box_first b13 1) (ex_intro _ (sliding box_first) (ex_intro _ [(0, 2)%Z] (ex_intro _ h (ex_intro _ J
    (conj (proj1 box_guard) (conj (proj1 (proj2 box_guard)) (conj (one_contact_ok _ _) (conj (slides_model [6; 2; 2; 2]%Z [3; 3; 3; 3]%Z) (conj (sliding_data [6; 2; 2; 2]%Z [3; 3; 3; 3]%Z) (conj eq_refl X)))))))))))))).
Qed.
Print Assumptions C39_swapped_geoms_refuted.
(** Pairs of spheres of different contact dimensions: contacts are reordered, the
    bodies are not. *)
Theorem C39_reordered_contacts_refuted : exists L dm n j d ps h J, self_barrier dm n j /\ checked_pairs j ps /\ full_table (l_coll L) (j_model j) ps /\
  wf_model (j_model j) /\ wf_data (j_model j) d /\ (forall p, In p ps -> orient (j_model j) p = p) /\ call L j d = Ok h /\ jacobian L j d = Ok J /\ ~ rows_match L (j_model j) d ps dm h J.
Proof.
  exact (let '(ex_intro _ h (ex_intro _ J X)) := mixed_wrong in
    ex_intro _ (coll_lib one_contact) (ex_intro _ (1/4) (ex_intro _ 1%Z (ex_intro _ (guard_on mixed_dims b134 1) (ex_intro _ (sliding mixed_dims) (ex_intro _ [(0, 2); (0, 3)]%Z (ex_intro _ h (ex_intro _ J
    (conj (proj1 mixed_guard) (conj (proj1 (proj2 mixed_guard)) (conj (one_contact_ok _ _) (conj (slides_model [2; 2; 2; 2]%Z [1; 1; 3; 1]%Z) (conj (sliding_data [2; 2; 2; 2]%Z [1; 1; 3; 1]%Z) (conj (proj1 spheres_one_sort) X)))))))))))))).
Qed.
Print Assumptions C39_reordered_contacts_refuted.
(** Two contacts per pair: the body table has one row per pair only. *)
Theorem C39_several_contacts_per_pair_refuted : exists L dm n j d ps h J, self_barrier dm n j /\ checked_pairs j ps /\ full_table (l_coll L) (j_model j) ps /\
  wf_model (j_model j) /\ wf_data (j_model j) d /\ (forall p q, In p ps -> In q ps -> same_sort (j_model j) p q) /\ call L j d = Ok h /\ jacobian L j d = Ok J /\ ~ rows_match L (j_model j) d ps dm h J.
Proof.
  exact (let '(ex_intro _ h (ex_intro _ J X)) := double_wrong in
    ex_intro _ (coll_lib two_contacts) (ex_intro _ (1/4) (ex_intro _ 1%Z (ex_intro _ (guard_on spheres b134 1) (ex_intro _ (sliding spheres) (ex_intro _ [(0, 2); (0, 3)]%Z (ex_intro _ h (ex_intro _ J
    (conj (proj1 spheres_guard) (conj (proj1 (proj2 spheres_guard)) (conj (two_contacts_ok _ _) (conj (slides_model [2; 2; 2; 2]%Z [3; 3; 3; 3]%Z) (conj (sliding_data [2; 2; 2; 2]%Z [3; 3; 3; 3]%Z) (conj (proj1 (proj2 spheres_one_sort)) X)))))))))))))).
Qed.
Print Assumptions C39_several_contacts_per_pair_refuted.
(** No pair at all: a value exists, a Jacobian does not. *)
Theorem C39_no_pairs_refuted L dm n j d : self_barrier dm n j -> checked_pairs j [] -> j_dim j = 0%Z -> call L j d = Ok [] /\ jacobian L j d = Err IndexError.
Proof. exact (self_no_pairs L dm n j d). Qed.
Print Assumptions C39_no_pairs_refuted.
Example C39_no_pairs_case : exists j, self_barrier (1/4) (-1) j /\ checked_pairs j [] /\ j_dim j = 0%Z.
Proof. exact (ex_intro _ _ empty_guard). Qed.
