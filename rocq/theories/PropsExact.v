(** Exact forms of C22, C39, C59 and C78: what the code does in every case. *)
From Verif Require Import Base Lin Mjx Typing Problem Component SpecComponent SpecJoint SpecHistory Witness Rot Conf FrameJac Collide JaxComponents Visualize.
From Verif Require Import SpecCollision SpecTree SpecShape SpecContact SpecSelf SpecRows SpecViz SpecFiles.
From Verif Require Import BindFacts2 BindThms BindCases ConfFacts CollideFacts5 CollideCases RowCases FileFacts VizCases PropsBinding.
Open Scope R_scope.

(** ** C22.  Default limits work exactly when all scalar joints are selected. *)
Theorem C22_default_limits_iff name gain gf sdg fm c m : new_joint_barrier name gain gf sdg None None fm = Ok c -> wf_joints m -> mask_fits m fm ->
  (fst (update_model m c) = Ok tt <-> List.length (selected m fm) = n_scalar m).
Proof.
  intros Hc Hm Hf. split; intros H.
  - destruct (Nat.eq_dec (List.length (selected m fm)) (n_scalar m)) as [E|E]; [exact E|]. rewrite (C22_masked_default_limits_refuted _ _ _ _ _ _ _ Hc Hm Hf E) in H. discriminate.
  - now apply (C22_default_limits name gain gf sdg fm c m).
Qed.
Print Assumptions C22_default_limits_iff.

(** ** C39.  For any list of pairs: a value and a row belong to one contact, but the row
    takes its two bodies from the pair at the position of that contact in the list of
    contacts (the last pair, past the end), whatever pair the contact came from. *)
Theorem C39_rows_exact L dm n j d ps h : self_barrier dm n j -> checked_pairs j ps -> full_table (l_coll L) (j_model j) ps ->
  wf_model (j_model j) -> wf_data (j_model j) d -> ps <> [] -> call L j d = Ok h ->
  exists cs l J, compute_collision_pairs (l_coll L) (j_model j) d ps = Ok cs /\ side_by_side cs l /\
    (exists a, all_contacts L (j_model j) d ps a /\ Permutation l a) /\
    jacobian L j d = Ok J /\ is_mat (List.length h) (m_nv (j_model j)) J /\
    forall i x row, nth_error h i = Some x -> nth_error J i = Some row ->
      exists k g c, nth_error l k = Some (g, c) /\ x = ct_dist c - dm /\ distance_rate (j_model j) d (pair_at ps k) c row.
Proof. exact (self_rows_exact L dm n j d ps h). Qed.
Print Assumptions C39_rows_exact.
(** So the rows are right whenever these bodies are those of the contact, for pairs of
    any sorts and any number of contacts. *)
Theorem C39_right_if_bodies_agree L dm n j d ps h : self_barrier dm n j -> checked_pairs j ps -> full_table (l_coll L) (j_model j) ps ->
  wf_model (j_model j) -> wf_data (j_model j) d -> ps <> [] -> call L j d = Ok h ->
  (forall cs l k g c, compute_collision_pairs (l_coll L) (j_model j) d ps = Ok cs -> side_by_side cs l -> nth_error l k = Some (g, c) -> same_bodies (j_model j) (pair_at ps k) g) ->
  exists J, jacobian L j d = Ok J /\ rows_match L (j_model j) d ps dm h J.
Proof. exact (self_rows_right L dm n j d ps h). Qed.
Print Assumptions C39_right_if_bodies_agree.
Example C39_exact_case : let L := coll_lib one_contact in let j := guard_on in_order b134 1 in let ps := [(0, 2); (0, 3)]%Z in let d := sliding in_order in
  self_barrier (1/4) 1 j /\ checked_pairs j ps /\ full_table (l_coll L) (j_model j) ps /\ wf_model (j_model j) /\ wf_data (j_model j) d /\ (exists h, call L j d = Ok h) /\
  ~ same_sort (j_model j) (0, 2)%Z (0, 3)%Z /\
  forall cs l k g c, compute_collision_pairs (l_coll L) (j_model j) d ps = Ok cs -> side_by_side cs l -> nth_error l k = Some (g, c) -> same_bodies (j_model j) (pair_at ps k) g.
Proof. exact in_order_case. Qed.

(** ** C59.  The zero configuration exists exactly for models with a joint. *)
Theorem C59_defined_iff m : ((exists q, get_joint_zero m = Ok q) <-> m_jnt_type m <> []) /\ (m_jnt_type m = [] -> get_joint_zero m = Err ValueError).
Proof.
  split; [|apply joint_zero_empty]. split.
  - intros (q & H) E. rewrite (joint_zero_empty m E) in H. discriminate.
  - unfold get_joint_zero, concat_arrays. destruct (m_jnt_type m); [contradiction|]. intros _. cbn. eauto.
Qed.
Print Assumptions C59_defined_iff.

(** ** C78.  Which file a mesh or texture is read from, when the right one, and when the
    document is accepted at all. *)
Theorem C78_first_file root dirs root' assets : remove_high_level_body_tags root dirs = Ok (root', assets) ->
  forall y f, In y (descendants root') -> is_asset y = true -> file_of y = Some f -> exists c, assoc f assets = Some c /\ first_file dirs f c.
Proof. exact (assets_first root dirs root' assets). Qed.
Print Assumptions C78_first_file.
Theorem C78_right_iff root dirs root' assets : remove_high_level_body_tags root dirs = Ok (root', assets) ->
  forall y f, In y (descendants root') -> is_asset y = true -> file_of y = Some f ->
  (forall c, holds_file dirs f c -> assoc f assets = Some c) <-> (forall c c', holds_file dirs f c -> holds_file dirs f c' -> c = c').
Proof. exact (assets_right_iff root dirs root' assets). Qed.
Print Assumptions C78_right_iff.
Theorem C78_accepted_iff u g a pre wu wa kids post dirs : let root := El u g a (pre ++ El wu "worldbody" wa kids :: post) in
  Forall (no_tag "worldbody") pre -> NoDup (uids kids) ->
  ((exists r, remove_high_level_body_tags root dirs = Ok r) <->
   forall y f, In y (descendants root) -> is_asset y = true -> file_of y = Some f -> exists c, holds_file dirs (strip_hash f) c) /\
  ((forall r, remove_high_level_body_tags root dirs <> Ok r) -> remove_high_level_body_tags root dirs = Err ValueError).
Proof. exact (files_outcome u g a pre wu wa kids post dirs). Qed.
Print Assumptions C78_accepted_iff.
Example C78_files_case : let dirs := [("/m", [("scene.xml", "<>")]); ("/m/assets", [("part.stl", "solid")])]%string in
  (exists root, remove_high_level_body_tags document dirs = Ok (root, [("part.stl", "solid")]%string)) /\ first_file dirs "part.stl" "solid" /\
  (forall c c', holds_file dirs "part.stl" c -> holds_file dirs "part.stl" c' -> c = c') /\ remove_high_level_body_tags document [] = Err ValueError.
Proof.
  cbv zeta. split; [destruct assets_case as (r & H & _); exists r; exact H|]. split.
  - exists [("/m", [("scene.xml", "<>")])]%string, "/m/assets"%string, [("part.stl", "solid")]%string, []. split; [reflexivity|]. split; [reflexivity|]. intros e [<-|[]]. reflexivity.
  - split; [|reflexivity]. intros c c' (d & f & [E|[E|[]]] & H) (d' & f' & [E'|[E'|[]]] & H'); injection E as <- <-; injection E' as <- <-; cbn in H, H'; congruence.
Qed.
