(** Concrete components on a two-link arm, and counterexamples. *)
From Verif Require Import Base Lin LinFacts Mjx Typing Component SpecComponent SpecJoint SpecHistory Rot Conf FrameJac Collide JaxComponents Witness.
From Verif Require Import SpecCollision SpecTree SpecShape SpecContact SpecSelf SpecValue ConfCases CompThms2 BindCases RotFacts ValueFacts ValueFacts2 ValueFacts3 ValueFacts4.
Open Scope R_scope.

Lemma chain_sound ts : sound_model (chain ts).
Proof.
  split; [apply chain_model|]. split; [apply chain_bodies|]. split; [unfold wf_geoms, chain; cbn; unfold zs; rewrite map_length, seq_length, !repeat_length; auto|]. split; [apply chain_names|].
  split; [|split; reflexivity]. intros ty s i Hp [H|[H|[]]]; injection H as <- <- <-; cbn; lia.
Qed.
(** Every body of the arm at [p] with rotation matrix [r]. *)
Definition posed (m : mjmodel) (p r : list R) : mjdata :=
  let d := straight m (repeat 0 (m_nq m)) in
  {| d_qpos := d_qpos d; d_xpos := repeat p (m_nbody m); d_xmat := repeat r (m_nbody m); d_xquat := d_xquat d; d_xipos := d_xipos d;
     d_geom_xpos := d_geom_xpos d; d_geom_xmat := d_geom_xmat d; d_site_xpos := d_site_xpos d; d_site_xmat := d_site_xmat d;
     d_subtree_com := repeat p (m_nbody m); d_cdof := d_cdof d; d_efc_pos := []; d_efc_is_equality := []; d_efc_J := [] |}.
Lemma posed_data m p r : List.length p = 3%nat -> List.length r = 9%nat -> wf_data m (posed m p r).
Proof.
  intros Lp Lr. destruct (straight_data m (repeat 0 (m_nq m)) (repeat_length _ _)) as (D0 & _ & _ & D3 & D4 & D5 & D6 & D7 & D8 & _ & D10 & _).
  unfold wf_data, posed. cbn [d_qpos d_xpos d_xmat d_xquat d_xipos d_geom_xpos d_geom_xmat d_site_xpos d_site_xmat d_subtree_com d_cdof d_efc_pos d_efc_is_equality d_efc_J].
  repeat (split; [first [assumption | now apply repeat_mat]|]). split; [reflexivity|]. split; [reflexivity|constructor].
Qed.
Definition compiled (os : list cop) (c : comp) : jaxc :=
  match fst (jax_component (history os c)) with Ok j => j | Err _ => mkJ 0 arm2 [] (fun x => x) [] (JConstraint true true [] JCModelEq) end.
Lemma compiled_is c os j : compiled os c = j -> Forall (call_with sound_model) os -> binds_ok os c -> (exists j', fst (jax_component (history os c)) = Ok j') -> compiled_from c j.
Proof. intros <- Ho Hb [j' Hj]. exists os. split; [exact Ho|]. split; [exact Hb|]. unfold compiles, compiled. now rewrite Hj. Qed.

Definition pos_comp (mk : option (list Z)) : comp :=
  mkC (mkA "reach" None (tscalar 2) (fun x => x) (Z.of_nat (match mk with None => 3 | Some l => List.length (argwhere l) end)) mk (match mk with None => [] | Some l => argwhere l end)
  (XTask (tscalar 1) 0%R (TPos (mkO "tip" OBody (-1)) (tvec (vzero (match mk with None => 3 | Some l => List.length (argwhere l) end)))))) true None.
Lemma pos_comp_new mk : new_position_task "reach" (tscalar 1) (tscalar 2) "tip" OBody None 0%R (option_map mvec mk) = Ok (pos_comp mk).
Proof. destruct mk as [l|]; unfold new_position_task, init_task; cbn; rewrite not_neg0; reflexivity. Qed.
Definition pos_on (mk : option (list Z)) (t : vec) : jaxc := compiled [OpTargetPos (tvec t); OpModel arm2] (pos_comp mk).
Lemma calls_ok o : (match o with OpAssign _ | OpModel _ => False | _ => True end) -> Forall (call_with sound_model) [o; OpModel arm2].
Proof. intros H. constructor; [destruct o; try exact I; contradiction|]. constructor; [apply chain_sound|constructor]. Qed.
Lemma pos_on_ok : position_task None "tip" OBody (pos_on None [1; 2; 3]) /\ target_is (pos_on None [1; 2; 3]) [1; 2; 3] /\ j_model (pos_on None [1; 2; 3]) = arm2.
Proof.
  split; [|split; [right; do 4 eexists; vm_compute; reflexivity|reflexivity]].
  exists "reach"%string, (tscalar 1), (tscalar 2), None, 0, (pos_comp None). split; [exact (pos_comp_new None)|].
  eapply compiled_is; [reflexivity|now apply calls_ok|split; [exact I|split; [vm_compute; reflexivity|exact I]]|eexists; vm_compute; reflexivity].
Qed.
Lemma pos_masked_ok : position_task (Some (mvec [1; 0; 1]%Z)) "tip" OBody (pos_on (Some [1; 0; 1]%Z) [1; 3]) /\ target_is (pos_on (Some [1; 0; 1]%Z) [1; 3]) [1; 3] /\ j_model (pos_on (Some [1; 0; 1]%Z) [1; 3]) = arm2.
Proof.
  split; [|split; [right; do 4 eexists; vm_compute; reflexivity|reflexivity]].
  exists "reach"%string, (tscalar 1), (tscalar 2), None, 0, (pos_comp (Some [1; 0; 1]%Z)). split; [exact (pos_comp_new (Some [1; 0; 1]%Z))|].
  eapply compiled_is; [reflexivity|now apply calls_ok|split; [exact I|split; [vm_compute; reflexivity|exact I]]|eexists; vm_compute; reflexivity].
Qed.
Definition long5 : list Z := [0; 0; 0; 1; 1]%Z.
Lemma pos_long_ok : position_task (Some (mvec long5)) "tip" OBody (pos_on (Some long5) [0; 0]) /\ j_model (pos_on (Some long5) [0; 0]) = arm2.
Proof.
  split; [|reflexivity].
  exists "reach"%string, (tscalar 1), (tscalar 2), None, 0, (pos_comp (Some long5)). split; [exact (pos_comp_new (Some long5))|].
  eapply compiled_is; [reflexivity|now apply calls_ok|split; [exact I|split; [vm_compute; reflexivity|exact I]]|eexists; vm_compute; reflexivity].
Qed.

Definition wall_on lts lo hi mk : jaxc := compiled [OpModel arm2] (wall_of lts lo hi mk).
Lemma wall_ok : position_barrier (Some (mvec [1; 0; 1]%Z)) "tip" OBody "max" (wall_on "max" None (Some (tscalar 2)) (Some (mvec [1; 0; 1]%Z))) /\
  p_limits_are "max" (wall_on "max" None (Some (tscalar 2)) (Some (mvec [1; 0; 1]%Z))) [] [2; 2] /\ j_model (wall_on "max" None (Some (tscalar 2)) (Some (mvec [1; 0; 1]%Z))) = arm2.
Proof.
  split; [|split; [|reflexivity]].
  - exists "wall"%string, (tscalar 1), None, (Some (tscalar 2)), None, 0, (wall_of "max" None (Some (tscalar 2)) (Some (mvec [1; 0; 1]%Z))). split; [reflexivity|].
    eapply compiled_is; [reflexivity|constructor; [apply chain_sound|constructor]|split; [vm_compute; reflexivity|exact I]|eexists; vm_compute; reflexivity].
  - do 6 eexists. split; [vm_compute; reflexivity|]. split; [intros []; reflexivity|reflexivity].
Qed.
Lemma wall_long_ok : position_barrier (Some (mvec long5)) "tip" OBody "min" (wall_on "min" None None (Some (mvec long5))) /\ j_model (wall_on "min" None None (Some (mvec long5))) = arm2.
Proof.
  split; [|reflexivity].
  exists "wall"%string, (tscalar 1), None, None, None, 0, (wall_of "min" None None (Some (mvec long5))). split; [reflexivity|].
  eapply compiled_is; [reflexivity|constructor; [apply chain_sound|constructor]|split; [vm_compute; reflexivity|exact I]|eexists; vm_compute; reflexivity].
Qed.

Definition frame_comp (mk : option (list Z)) : comp :=
  mkC (mkA "pose" None (tscalar 2) (fun x => x) (Z.of_nat (match mk with None => 6 | Some l => List.length (argwhere l) end)) mk (match mk with None => [] | Some l => argwhere l end)
  (XTask (tscalar 1) 0%R (TFrame (mkO "tip" OBody (-1)) (tvec [1; 0; 0; 0; 0; 0; 0])))) true None.
Lemma frame_comp_new mk : new_frame_task "pose" (tscalar 1) (tscalar 2) "tip" OBody None 0%R (option_map mvec mk) = Ok (frame_comp mk).
Proof. destruct mk as [l|]; unfold new_frame_task, init_task; cbn; rewrite not_neg0; reflexivity. Qed.
Definition frame_on (mk : option (list Z)) (q : quat) (p : v3) : jaxc := compiled [OpTargetFrame (FSE3 (tvec (q_list q ++ v3_list p))); OpModel arm2] (frame_comp mk).
Lemma frame_on_ok mk q p : mk = None \/ mk = Some [0; 0; 0; 0; 0; 0; 0; 1]%Z -> q_norm2 q = 1 ->
  frame_task (option_map mvec mk) "tip" OBody (frame_on mk q p) /\ target_frame_is (frame_on mk q p) q p /\ j_model (frame_on mk q p) = arm2.
Proof.
  intros Hmk Hq. split; [|split; [split; [exact Hq|]|]].
  - exists "pose"%string, (tscalar 1), (tscalar 2), None, 0, (frame_comp mk). split; [apply frame_comp_new|].
    eapply compiled_is; [reflexivity|now apply calls_ok| |].
    + destruct Hmk as [-> | ->]; (split; [exact I|split; [vm_compute; reflexivity|exact I]]).
    + destruct Hmk as [-> | ->]; eexists; vm_compute; reflexivity.
  - destruct q, p; destruct Hmk as [-> | ->]; do 4 eexists; vm_compute; reflexivity.
  - destruct Hmk as [-> | ->]; reflexivity.
Qed.

Definition com_comp : comp := mkC (mkA "com" None (tscalar 2) (fun x => x) 2 (Some [1; 1; 0]%Z) [0; 1]%Z (XTask (tscalar 1) 0%R (TCom (tvec [0; 0])))) true None.
Definition com_on (t : vec) : jaxc := compiled [OpTargetCom (tvec t); OpModel arm2] com_comp.
Lemma com_on_ok : com_task (Some (mvec [1; 1; 0]%Z)) (com_on [1; 2]) /\ wf_mask (Some (mvec [1; 1; 0]%Z)) /\ target_is (com_on [1; 2]) [1; 2] /\ j_model (com_on [1; 2]) = arm2.
Proof.
  split; [|split; [reflexivity|split; [left; do 2 eexists; vm_compute; reflexivity|reflexivity]]].
  exists "com"%string, (tscalar 1), (tscalar 2), None, 0, com_comp. split; [unfold new_com_task, init_task; cbn; rewrite not_neg0; reflexivity|].
  eapply compiled_is; [reflexivity|now apply calls_ok|split; [exact I|split; [vm_compute; reflexivity|exact I]]|eexists; vm_compute; reflexivity].
Qed.
(** A four-bar linkage: the two-link arm with one connect equality, and one row of another kind. *)
Definition linkage : mjmodel := with_eq arm2 [EqConnect].
Definition linkage_data : mjdata :=
  let d := straight arm2 [0; 0] in
  {| d_qpos := d_qpos d; d_xpos := d_xpos d; d_xmat := d_xmat d; d_xquat := d_xquat d; d_xipos := d_xipos d;
     d_geom_xpos := d_geom_xpos d; d_geom_xmat := d_geom_xmat d; d_site_xpos := d_site_xpos d; d_site_xmat := d_site_xmat d;
     d_subtree_com := d_subtree_com d; d_cdof := d_cdof d; d_efc_pos := [5; 1; 2; 3]; d_efc_is_equality := [false; true; true; true]; d_efc_J := [[9; 9]; [1; 0]; [0; 1]; [1; 1]] |}.
Lemma linkage_sound : sound_model linkage.
Proof. destruct (chain_sound [JHinge; JHinge]) as (A & B & C & D & E & _ & F). split; [exact A|]. split; [exact B|]. split; [exact C|]. split; [exact D|]. split; [exact E|]. split; [reflexivity|exact F]. Qed.
Lemma linkage_wf : wf_data linkage linkage_data.
Proof.
  destruct (straight_data arm2 [0; 0] eq_refl) as (D0 & D1 & D2 & D3 & D4 & D5 & D6 & D7 & D8 & D9 & D10 & _). repeat (split; [assumption|]).
  split; [reflexivity|]. split; [reflexivity|]. repeat constructor.
Qed.
Definition eq_on (m : mjmodel) : jaxc := compiled [OpModel m] (unwrap (new_model_equality "eq" (tscalar 1) true None) demo_equality).
Lemma eq_on_ok m : m = linkage \/ m = arm2 -> equality_constraint (eq_on m) /\ j_model (eq_on m) = m.
Proof.
  intros Hm. split.
  - exists "eq"%string, (tscalar 1), true, None, (unwrap (new_model_equality "eq" (tscalar 1) true None) demo_equality). split; [reflexivity|].
    eapply compiled_is; [reflexivity| | |].
    + constructor; [destruct Hm as [-> | ->]; [apply linkage_sound|apply chain_sound]|constructor].
    + split; [destruct Hm as [-> | ->]; vm_compute; reflexivity|exact I].
    + destruct Hm as [-> | ->]; eexists; vm_compute; reflexivity.
  - destruct Hm as [-> | ->]; reflexivity.
Qed.
