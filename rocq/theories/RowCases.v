(** Two sorts of pairs in the order of their contact dimensions: the rows are right. *)
From Verif Require Import Base Lin Mjx Typing Component SpecComponent SpecHistory Witness Rot FrameJac Collide JaxComponents SpecCollision SpecTree SpecShape SpecContact SpecSelf SpecRows.
From Verif Require Import CollideFacts CollideFacts2 CollideFacts3 CollideFacts4 CollideFacts5 CollideCases.
Open Scope R_scope.

Definition in_order : mjmodel := slides [2; 2; 2; 2]%Z [1; 1; 1; 3]%Z.
Lemma in_order_guard : self_barrier (1/4) 1 (guard_on in_order b134 1) /\ checked_pairs (guard_on in_order b134 1) [(0, 2); (0, 3)]%Z /\ j_model (guard_on in_order b134 1) = in_order.
Proof.
  split; [|split; [do 3 eexists; vm_compute; reflexivity|reflexivity]].
  unfold self_barrier. guard_tac in_order b134 1%Z (slides_wf [2; 2; 2; 2]%Z [1; 1; 1; 3]%Z eq_refl eq_refl).
Qed.
Lemma in_order_case : let L := coll_lib one_contact in let j := guard_on in_order b134 1 in let ps := [(0, 2); (0, 3)]%Z in let d := sliding in_order in
  self_barrier (1/4) 1 j /\ checked_pairs j ps /\ full_table (l_coll L) (j_model j) ps /\ wf_model (j_model j) /\ wf_data (j_model j) d /\ (exists h, call L j d = Ok h) /\
  ~ same_sort (j_model j) (0, 2)%Z (0, 3)%Z /\
  forall cs l k g c, compute_collision_pairs (l_coll L) (j_model j) d ps = Ok cs -> side_by_side cs l -> nth_error l k = Some (g, c) -> same_bodies (j_model j) (pair_at ps k) g.
Proof.
  cbv zeta. destruct in_order_guard as (A & B & C). split; [exact A|]. split; [exact B|]. rewrite C. split; [apply one_contact_ok|]. split; [apply slides_model|]. split; [apply sliding_data|].
  set (l0 := [((0, 2)%Z, axis_contact (0, 2)%Z 0); ((0, 3)%Z, axis_contact (0, 3)%Z 0)]).
  assert (E : compute_collision_pairs one_contact in_order (sliding in_order) [(0, 2); (0, 3)]%Z = Ok (arrays l0)) by reflexivity.
  split; [|split].
  - assert (S : smallest (cs_dist (arrays l0)) 1 = Ok [0%nat]) by (cbn; apply smallest_first; lra). exists [ct_dist (axis_contact (0, 2)%Z 0) - 1/4].
    change (call_self (coll_lib one_contact) in_order [1/4] [(0, 2); (0, 3)]%Z 1 (sliding in_order) = Ok [ct_dist (axis_contact (0, 2)%Z 0) - 1/4]).
    unfold call_self. cbn [coll_lib l_coll]. rewrite E. cbn [bind]. rewrite S. reflexivity.
  - intros (_ & _ & _ & _ & X). vm_compute in X. discriminate.
  - intros cs l k g c Hc Hs Hk. cbn [coll_lib l_coll] in Hc. rewrite E in Hc. injection Hc as <-. apply (side_by_side_fun l0) in Hs. subst l.
    destruct k as [|[|k]]; cbn in Hk; [injection Hk as <- _; split; reflexivity|injection Hk as <- _; split; reflexivity|destruct k; discriminate].
Qed.
