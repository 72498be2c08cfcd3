(** The joint masks computed when a model is bound. *)
From Verif Require Import Base Lin LinFacts Mjx Typing Component SpecComponent ComponentFacts ComponentFacts2 SpecJoint.
Open Scope Z_scope.
Open Scope nat_scope.

Definition zr (k b e : nat) (l : list Z) : list Z :=
  map (fun p => if (Nat.leb b (fst p) && Nat.ltb (fst p) e) then 0%Z else snd p) (combine (seq k (List.length l)) l).
Lemma zr_cons k b e x l : zr k b e (x :: l) = (if (Nat.leb b k && Nat.ltb k e) then 0%Z else x) :: zr (S k) b e l.
Proof. reflexivity. Qed.
Lemma zr_app k b e l l' : zr k b e (l ++ l') = zr k b e l ++ zr (k + List.length l) b e l'.
Proof.
  revert k. induction l as [|x l IH]; intros k; cbn [app List.length].
  - now rewrite Nat.add_0_r.
  - rewrite !zr_cons, IH. cbn. do 3 f_equal. lia.
Qed.
Lemma zr_before k b e l : k + List.length l <= b -> zr k b e l = l.
Proof.
  revert k. induction l as [|x l IH]; intros k H; [reflexivity|]. cbn [List.length] in H. rewrite zr_cons, IH by lia.
  replace (Nat.leb b k) with false by (symmetry; apply Nat.leb_gt; lia). reflexivity.
Qed.
Lemma zr_after k b e l : e <= k -> zr k b e l = l.
Proof.
  revert k. induction l as [|x l IH]; intros k H; [reflexivity|]. rewrite zr_cons, IH by lia.
  replace (Nat.ltb k e) with false by (symmetry; apply Nat.ltb_ge; lia). now rewrite andb_false_r.
Qed.
Lemma zr_inside k b e l : b <= k -> k + List.length l <= e -> zr k b e l = repeat 0%Z (List.length l).
Proof.
  revert k. induction l as [|x l IH]; intros k H1 H2; [reflexivity|]. cbn [List.length] in *. rewrite zr_cons, IH by lia.
  replace (Nat.leb b k) with true by (symmetry; apply Nat.leb_le; lia).
  replace (Nat.ltb k e) with true by (symmetry; apply Nat.ltb_lt; lia). reflexivity.
Qed.
Lemma zero_range_mid p x r :
  zero_range (List.length p) (List.length p + List.length x) (p ++ x ++ r) = p ++ repeat 0%Z (List.length x) ++ r.
Proof.
  change (zero_range ?b ?e ?l) with (zr 0 b e l). rewrite !zr_app. cbn [Nat.add].
  rewrite zr_before by lia. rewrite zr_inside by lia. rewrite zr_after by lia. reflexivity.
Qed.

Lemma zero_range_ones n p r :
  zero_range (List.length p) (List.length p + n) (p ++ repeat 1%Z n ++ r) = (p ++ repeat 0%Z n) ++ r.
Proof.
  pose proof (zero_range_mid p (repeat 1%Z n) r) as H. rewrite !repeat_length in H. rewrite H. now rewrite <- app_assoc.
Qed.

Definition expand (size : jnttype -> nat) (ts : list jnttype) : list Z :=
  flat_map (fun t => repeat (if is_scalar t then 1%Z else 0%Z) (size t)) ts.

Lemma clear_joints_eq ts : forall sq sv pq pv,
  List.length pq = sq -> List.length pv = sv ->
  clear_joints ts (adrs jnt_nq sq ts) (adrs jnt_nv sv ts)
    (pq ++ repeat 1%Z (total jnt_nq ts)) (pv ++ repeat 1%Z (total jnt_nv ts))
  = Ok (pq ++ expand jnt_nq ts, pv ++ expand jnt_nv ts).
Proof.
  induction ts as [|t ts IH]; intros sq sv pq pv Hq Hv; [reflexivity|].
  cbn [adrs clear_joints].
  assert (S : forall (size : jnttype -> nat), total size (t :: ts) = size t + total size ts) by reflexivity.
  rewrite !S, !repeat_app. subst sq sv.
  destruct t; cbn [jnt_nq jnt_nv].
  - rewrite (zero_range_ones 7), (zero_range_ones 6).
    rewrite IH by (rewrite app_length, repeat_length; reflexivity).
    cbn [expand flat_map jnt_nq jnt_nv is_scalar]. now rewrite <- !app_assoc.
  - rewrite (zero_range_ones 4), (zero_range_ones 3).
    rewrite IH by (rewrite app_length, repeat_length; reflexivity).
    cbn [expand flat_map jnt_nq jnt_nv is_scalar]. now rewrite <- !app_assoc.
  - rewrite !(app_assoc _ (repeat 1%Z 1)), IH by (rewrite app_length, repeat_length; reflexivity).
    cbn [expand flat_map jnt_nq jnt_nv is_scalar]. now rewrite <- !app_assoc.
  - rewrite !(app_assoc _ (repeat 1%Z 1)), IH by (rewrite app_length, repeat_length; reflexivity).
    cbn [expand flat_map jnt_nq jnt_nv is_scalar]. now rewrite <- !app_assoc.
Qed.

Lemma scalar_masks_eq m : wf_joints m ->
  scalar_masks m = Ok (expand jnt_nq (m_jnt_type m), expand jnt_nv (m_jnt_type m)).
Proof.
  intros (H1 & H2 & H3 & H4 & H5 & _). unfold scalar_masks. rewrite H1, Nat.ltb_irrefl, firstn_all, H2, H3, H4, H5.
  apply (clear_joints_eq (m_jnt_type m) 0 0 [] []); reflexivity.
Qed.

(** With a user mask. *)
Fixpoint expandf (size : jnttype -> nat) (ts : list jnttype) (f : list Z) : list Z :=
  match ts with
  | [] => []
  | t :: r => if is_scalar t
              then match f with x :: f' => x :: expandf size r f' | [] => [] end
              else repeat 0%Z (size t) ++ expandf size r f
  end.

Definition one_scalar (size : jnttype -> nat) : Prop := forall t, is_scalar t = true -> size t = 1.
Lemma one_nq : one_scalar jnt_nq. Proof. intros []; cbn; intros; try discriminate; reflexivity. Qed.
Lemma one_nv : one_scalar jnt_nv. Proof. intros []; cbn; intros; try discriminate; reflexivity. Qed.

Lemma scalar_joints_length ts j k : List.length (scalar_joints ts j) = List.length (scalar_joints ts k).
Proof.
  revert j k. induction ts as [|t ts IH]; intros j k; [reflexivity|]. cbn.
  destruct (is_scalar t); cbn; [f_equal|]; apply IH.
Qed.

Lemma scatter_zeros n l v : scatter_true (repeat 0%Z n ++ l) v = repeat 0%Z n ++ scatter_true l v.
Proof. induction n as [|n IH]; [reflexivity|]. cbn. now rewrite IH. Qed.

Lemma scatter_expand size ts f : one_scalar size -> List.length f = List.length (scalar_joints ts 0) ->
  scatter_true (expand size ts) f = expandf size ts f.
Proof.
  intros Hs. revert f. induction ts as [|t ts IH]; intros f Hl; [reflexivity|].
  cbn [expand flat_map expandf scalar_joints] in *. fold (expand size ts).
  destruct (is_scalar t) eqn:E.
  - rewrite (Hs _ E). cbn [repeat app scatter_true]. cbn [List.length] in Hl. destruct f as [|x f]; [discriminate|].
    cbn. rewrite IH; [reflexivity|]. injection Hl as ->. apply scalar_joints_length.
  - rewrite scatter_zeros, IH; [reflexivity|]. rewrite Hl. apply scalar_joints_length.
Qed.

Lemma count_true_app l l' : count_true (l ++ l') = count_true l + count_true l'.
Proof. unfold count_true. now rewrite filter_app, app_length. Qed.
Lemma count_true_zeros n : count_true (repeat 0%Z n) = 0.
Proof. induction n; [reflexivity|]. assumption. Qed.
Lemma count_expand size ts : one_scalar size -> count_true (expand size ts) = List.length (scalar_joints ts 0).
Proof.
  intros Hs. induction ts as [|t ts IH]; [reflexivity|].
  cbn [expand flat_map scalar_joints]. fold (expand size ts). rewrite count_true_app, IH.
  destruct (is_scalar t) eqn:E.
  - rewrite (Hs _ E). cbn. f_equal. apply scalar_joints_length.
  - rewrite count_true_zeros. apply scalar_joints_length.
Qed.
Lemma zsum_app l l' : zsum (l ++ l') = (zsum l + zsum l')%Z.
Proof. induction l as [|x l IH]; [reflexivity|]. cbn [app]. unfold zsum in *. cbn. rewrite IH. lia. Qed.
Lemma zsum_zeros n : zsum (repeat 0%Z n) = 0%Z.
Proof. induction n as [|n IH]; [reflexivity|]. unfold zsum in *. cbn. now rewrite IH. Qed.
Lemma zsum_expand size ts : one_scalar size -> zsum (expand size ts) = Z.of_nat (List.length (scalar_joints ts 0)).
Proof.
  intros Hs. induction ts as [|t ts IH]; [reflexivity|].
  cbn [expand flat_map scalar_joints]. fold (expand size ts). rewrite zsum_app, IH.
  destruct (is_scalar t) eqn:E.
  - rewrite (Hs _ E). cbn [repeat zsum fold_right]. cbn [List.length]. rewrite (scalar_joints_length ts 1 0). lia.
  - rewrite zsum_zeros, (scalar_joints_length ts 1 0). lia.
Qed.

Lemma expandf_ones size ts : one_scalar size ->
  expandf size ts (repeat 1%Z (List.length (scalar_joints ts 0))) = expand size ts.
Proof.
  intros Hs. induction ts as [|t ts IH]; [reflexivity|].
  cbn [expand flat_map expandf scalar_joints]. fold (expand size ts).
  destruct (is_scalar t) eqn:E.
  - rewrite (Hs _ E). cbn. f_equal. rewrite (scalar_joints_length ts 1 0). exact IH.
  - f_equal. rewrite (scalar_joints_length ts 1 0). exact IH.
Qed.

(** Positions of the non-zero entries. *)
Definition argw (k : nat) (l : list Z) : list Z :=
  map (fun p => Z.of_nat (fst p)) (filter (fun p => negb (snd p =? 0)%Z) (combine (seq k (List.length l)) l)).
Lemma argw_cons k x l : argw k (x :: l) = (if (x =? 0)%Z then [] else [Z.of_nat k]) ++ argw (S k) l.
Proof. unfold argw. cbn [List.length seq combine filter snd]. destruct (x =? 0)%Z; reflexivity. Qed.
Lemma argw_zeros k n l : argw k (repeat 0%Z n ++ l) = argw (k + n) l.
Proof.
  revert k. induction n as [|n IH]; intros k; cbn [repeat app]; [now rewrite Nat.add_0_r|].
  rewrite argw_cons. cbn. rewrite IH. f_equal. lia.
Qed.

Lemma scalar_joints_shift ts j : scalar_joints ts (S j) = map S (scalar_joints ts j).
Proof.
  revert j. induction ts as [|t ts IH]; intros j; [reflexivity|]. cbn. destruct (is_scalar t); cbn; now rewrite IH.
Qed.
Definition sel (ts : list jnttype) (f : list Z) : list nat :=
  map fst (filter (fun p => negb (snd p =? 0)%Z) (combine (scalar_joints ts 0) f)).
Lemma sel_shift (l : list nat) f :
  map fst (filter (fun p : nat * Z => negb (snd p =? 0)%Z) (combine (map S l) f))
  = map S (map fst (filter (fun p => negb (snd p =? 0)%Z) (combine l f))).
Proof.
  revert f. induction l as [|x l IH]; intros [|y f]; try reflexivity. cbn. destruct (y =? 0)%Z; cbn; now rewrite IH.
Qed.

Lemma argw_expandf size ts : one_scalar size -> forall f k,
  List.length f = List.length (scalar_joints ts 0) ->
  argw k (expandf size ts f) = map (fun j => Z.of_nat (nth j (adrs size k ts) 0)) (sel ts f).
Proof.
  intros Hs. induction ts as [|t ts IH]; intros f k Hl; [reflexivity|].
  cbn [expandf]. unfold sel. cbn [scalar_joints] in *. rewrite scalar_joints_shift in *.
  destruct (is_scalar t) eqn:E.
  - cbn [List.length] in Hl. rewrite map_length in Hl. destruct f as [|x f]; [discriminate|].
    rewrite argw_cons, IH by (cbn in Hl; lia). cbn [combine filter snd adrs]. rewrite (Hs _ E), Nat.add_1_r.
    destruct (x =? 0)%Z; cbn [app negb map fst nth]; rewrite sel_shift, map_map; reflexivity.
  - rewrite map_length in Hl. rewrite argw_zeros, IH by exact Hl. rewrite sel_shift, map_map. reflexivity.
Qed.

Lemma sel_ones ts : sel ts (repeat 1%Z (List.length (scalar_joints ts 0))) = scalar_joints ts 0.
Proof.
  unfold sel. induction (scalar_joints ts 0) as [|x l IH]; [reflexivity|]. cbn. now rewrite IH.
Qed.

(** Final masks as the model computes them. *)
Definition fin (m : mjmodel) (f : option (list Z)) : list Z :=
  match f with None => repeat 1%Z (n_scalar m) | Some f => f end.

Lemma selected_sel m f : selected m f = sel (m_jnt_type m) (fin m f).
Proof. destruct f; [reflexivity|]. cbn. unfold n_scalar. now rewrite sel_ones. Qed.
Lemma fin_length m f : mask_fits m f -> List.length (fin m f) = n_scalar m.
Proof. destruct f; cbn; [auto|]. intros _. apply repeat_length. Qed.

#[local] Arguments argwhere : simpl never.
#[local] Arguments selected : simpl never.
#[local] Arguments n_scalar : simpl never.
Definition bound_state (m : mjmodel) (f : option (list Z)) (c : comp) : comp :=
  mkC (set_a_mask_idxs (set_a_mask (set_a_model (c_at c) m) (expandf jnt_nv (m_jnt_type m) (fin m f)))
         (map (fun j => Z.of_nat (dof_of m j)) (selected m f))) true (c_cache c).

Lemma bind_joint_ok m f c : wf_joints m -> mask_fits m f ->
  bind_joint_masks m f c =
  (Ok (map (fun j => Z.of_nat (qpos_of m j)) (selected m f), map (fun j => Z.of_nat (dof_of m j)) (selected m f)),
   bound_state m f c).
Proof.
  intros Hw Hf. pose proof Hw as (_ & Hq & Hv & _).
  assert (Aq : argwhere (expandf jnt_nq (m_jnt_type m) (fin m f)) = map (fun j => Z.of_nat (qpos_of m j)) (selected m f)).
  { change (argwhere ?l) with (argw 0 l). rewrite (argw_expandf _ _ one_nq) by (now apply fin_length).
    rewrite selected_sel. unfold qpos_of. now rewrite Hq. }
  assert (Av : argwhere (expandf jnt_nv (m_jnt_type m) (fin m f)) = map (fun j => Z.of_nat (dof_of m j)) (selected m f)).
  { change (argwhere ?l) with (argw 0 l). rewrite (argw_expandf _ _ one_nv) by (now apply fin_length).
    rewrite selected_sel. unfold dof_of. now rewrite Hv. }
  unfold bind_joint_masks, mseq, mbind, seta, lift, ret, raise. cbn.
  rewrite (scalar_masks_eq _ Hw). destruct f as [f|]; cbn.
  - cbn in Hf. rewrite (zsum_expand _ _ one_nv). fold (n_scalar m). rewrite Hf, Z.eqb_refl. cbn.
    unfold scatter_bool. rewrite (count_expand _ _ one_nv), (count_expand _ _ one_nq). fold (n_scalar m).
    rewrite Hf, Nat.eqb_refl.
    rewrite (scatter_expand _ _ _ one_nv Hf), (scatter_expand _ _ _ one_nq Hf). cbn.
    cbn in Aq, Av. rewrite Aq, Av. reflexivity.
  - cbn in Aq, Av. unfold n_scalar in Aq, Av.
    rewrite (expandf_ones _ _ one_nq) in Aq. rewrite (expandf_ones _ _ one_nv) in Av. rewrite Aq, Av.
    unfold bound_state. cbn. unfold n_scalar. rewrite (expandf_ones _ _ one_nv). reflexivity.
Qed.

Lemma bind_joint_bad m f c : wf_joints m -> ~ mask_fits m f ->
  exists c', bind_joint_masks m f c = (Err ValueError, c') /\ a_dim (c_at c') = a_dim (c_at c) /\
             a_ext (c_at c') = a_ext (c_at c) /\ a_gain (c_at c') = a_gain (c_at c) /\
             a_mask_idxs (c_at c') = a_mask_idxs (c_at c).
Proof.
  intros Hw Hf. destruct f as [f|]; [|exfalso; apply Hf; exact I]. cbn in Hf.
  unfold bind_joint_masks, mseq, mbind, seta, lift, ret, raise. cbn.
  rewrite (scalar_masks_eq _ Hw). cbn. rewrite (zsum_expand _ _ one_nv). fold (n_scalar m).
  replace (Z.of_nat (n_scalar m) =? Z.of_nat (List.length f))%Z with false by (symmetry; apply Z.eqb_neq; lia).
  cbn. eexists. split; [reflexivity|]. repeat split.
Qed.

(** Order and membership of the selected joints. *)
Lemma scalar_joints_spec ts j i : In i (scalar_joints ts j) <->
  j <= i < j + List.length ts /\ (exists t, nth_error ts (i - j) = Some t /\ is_scalar t = true).
Proof.
  revert j. induction ts as [|t ts IH]; intros j; cbn [scalar_joints List.length].
  - cbn. split; [tauto|lia].
  - assert (G : In i (scalar_joints ts (S j)) <-> (S j <= i < j + S (List.length ts) /\
       exists t', nth_error (t :: ts) (i - j) = Some t' /\ is_scalar t' = true)).
    { rewrite IH. split; intros [H (t' & H1 & H2)]; (split; [lia|]); exists t'; split; auto.
      - replace (i - j) with (S (i - S j)) by lia. exact H1.
      - replace (i - j) with (S (i - S j)) in H1 by lia. exact H1. }
    destruct (is_scalar t) eqn:E; cbn [In]; rewrite G.
    + split.
      * intros [<-|[H1 H2]]; [|split; [lia|exact H2]]. split; [lia|]. rewrite Nat.sub_diag. exists t. now split.
      * intros [H1 H2]. destruct (Nat.eq_dec j i); [now left|right]. split; [lia|exact H2].
    + split; intros [H1 H2]; (split; [lia|exact H2] || idtac).
      destruct (Nat.eq_dec j i) as [<-|].
      * exfalso. rewrite Nat.sub_diag in H2. destruct H2 as (t' & H2 & H3). cbn in H2. injection H2 as <-. congruence.
      * split; [lia|exact H2].
Qed.
Lemma scalar_joints_sorted ts j : StronglySorted lt (scalar_joints ts j).
Proof.
  revert j. induction ts as [|t ts IH]; intros j; cbn; [constructor|].
  destruct (is_scalar t); [|apply IH]. constructor; [apply IH|].
  apply Forall_forall. intros i Hi. apply scalar_joints_spec in Hi. lia.
Qed.
Lemma sorted_filter_combine (l : list nat) (f : list Z) P : StronglySorted lt l ->
  StronglySorted lt (map fst (filter P (combine l f))).
Proof.
  intros H. revert f. induction H as [|x l H IH Hx]; intros [|y f]; cbn; try constructor.
  destruct (P (x, y)); [|apply IH]. cbn. constructor; [apply IH|].
  rewrite Forall_forall in *. intros i Hi. apply in_map_iff in Hi. destruct Hi as ((a & b) & <- & Hi).
  apply filter_In in Hi. destruct Hi as [Hi _]. apply in_combine_l in Hi. now apply Hx.
Qed.
Lemma selected_sorted m f : StronglySorted lt (selected m f).
Proof. destruct f; cbn; [apply sorted_filter_combine|]; apply scalar_joints_sorted. Qed.
Lemma selected_scalar m f j : In j (selected m f) ->
  exists t, nth_error (m_jnt_type m) j = Some t /\ is_scalar t = true.
Proof.
  assert (G : In j (scalar_joints (m_jnt_type m) 0) -> exists t, nth_error (m_jnt_type m) j = Some t /\ is_scalar t = true).
  { intros H. apply scalar_joints_spec in H. destruct H as [_ H]. now rewrite Nat.sub_0_r in H. }
  destruct f as [f|]; cbn; [|exact G]. intros H. apply G. apply in_map_iff in H. destruct H as ((a & b) & <- & H).
  apply filter_In in H. destruct H as [H _]. now apply in_combine_l in H.
Qed.

(** Addresses grow with the joint id. *)
Lemma adrs_length size k ts : List.length (adrs size k ts) = List.length ts.
Proof. revert k. induction ts; intros k; cbn; congruence. Qed.
Lemma adrs_ge size ts : forall k i, i < List.length ts -> k <= nth i (adrs size k ts) 0.
Proof.
  induction ts as [|t ts IH]; intros k i H; cbn in *; [lia|]. destruct i as [|i]; [lia|].
  specialize (IH (k + size t) i ltac:(lia)). lia.
Qed.
Lemma adrs_next size ts : forall k i j, i < j -> j < List.length ts ->
  nth i (adrs size k ts) 0 + size (nth i ts JFree) <= nth j (adrs size k ts) 0.
Proof.
  induction ts as [|t ts IH]; intros k i j Hij Hj; cbn in *; [lia|].
  destruct j as [|j]; [lia|]. destruct i as [|i].
  - apply adrs_ge. lia.
  - apply IH; lia.
Qed.
Lemma adrs_end size ts : forall k i, i < List.length ts ->
  nth i (adrs size k ts) 0 + size (nth i ts JFree) <= k + total size ts.
Proof.
  unfold total. induction ts as [|t ts IH]; intros k i H; cbn in *; [lia|]. destruct i as [|i]; [lia|].
  specialize (IH (k + size t) i ltac:(lia)). lia.
Qed.
Lemma size_pos_nq t : 0 < jnt_nq t. Proof. destruct t; cbn; lia. Qed.
Lemma size_pos_nv t : 0 < jnt_nv t. Proof. destruct t; cbn; lia. Qed.
Lemma adrs_lt size ts k i j : (forall t, 0 < size t) -> i < j -> j < List.length ts ->
  nth i (adrs size k ts) 0 < nth j (adrs size k ts) 0.
Proof. intros Hs H1 H2. pose proof (adrs_next size ts k i j H1 H2). specialize (Hs (nth i ts JFree)). lia. Qed.

Lemma selected_lt m f j : In j (selected m f) -> j < List.length (m_jnt_type m).
Proof. intros H. destruct (selected_scalar _ _ _ H) as (t & H1 & _). apply nth_error_Some. congruence. Qed.

Lemma map_sorted (l : list nat) (g : nat -> nat) : StronglySorted lt l ->
  (forall i j, In i l -> In j l -> i < j -> g i < g j) -> StronglySorted lt (map g l).
Proof.
  intros H. induction H as [|x l H IH Hx]; intros Hg; cbn; constructor.
  - apply IH. intros i j Hi Hj. apply Hg; now right.
  - rewrite Forall_forall in *. intros y Hy. apply in_map_iff in Hy. destruct Hy as (z & <- & Hz).
    apply Hg; [now left|now right|now apply Hx].
Qed.
Lemma selected_qpos_sorted m f : wf_joints m -> StronglySorted lt (map (qpos_of m) (selected m f)).
Proof.
  intros (_ & Hq & _). apply map_sorted; [apply selected_sorted|]. intros i j _ Hj H. unfold qpos_of. rewrite Hq.
  apply adrs_lt; auto using size_pos_nq. now apply selected_lt in Hj.
Qed.
Lemma selected_dof_sorted m f : wf_joints m -> StronglySorted lt (map (dof_of m) (selected m f)).
Proof.
  intros (_ & _ & Hv & _). apply map_sorted; [apply selected_sorted|]. intros i j _ Hj H. unfold dof_of. rewrite Hv.
  apply adrs_lt; auto using size_pos_nv. now apply selected_lt in Hj.
Qed.
Lemma selected_bounds m f j : wf_joints m -> In j (selected m f) ->
  qpos_of m j < m_nq m /\ dof_of m j < m_nv m.
Proof.
  intros (_ & Hq & Hv & Hnq & Hnv & _) Hj. apply selected_lt in Hj. unfold qpos_of, dof_of. rewrite Hq, Hv, Hnq, Hnv.
  pose proof (adrs_end jnt_nq _ 0 j Hj). pose proof (adrs_end jnt_nv _ 0 j Hj).
  pose proof (size_pos_nq (nth j (m_jnt_type m) JFree)). pose proof (size_pos_nv (nth j (m_jnt_type m) JFree)). lia.
Qed.
