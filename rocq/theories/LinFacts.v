(** Linear algebra facts about Lin.v. *)
From Verif Require Import Base Lin.
Open Scope R_scope.

Lemma vmap2_length f a b : List.length (vmap2 f a b) = Nat.min (List.length a) (List.length b).
Proof. unfold vmap2. rewrite map_length, combine_length. reflexivity. Qed.

Lemma vadd_length a b : List.length a = List.length b -> List.length (vadd a b) = List.length b.
Proof. intros H. unfold vadd. rewrite vmap2_length. lia. Qed.

Lemma vsub_length a b : List.length a = List.length b -> List.length (vsub a b) = List.length b.
Proof. intros H. unfold vsub. rewrite vmap2_length. lia. Qed.

Lemma vmul_length a b : List.length a = List.length b -> List.length (vmul a b) = List.length b.
Proof. intros H. unfold vmul. rewrite vmap2_length. lia. Qed.

Lemma vscale_length k a : List.length (vscale k a) = List.length a.
Proof. apply map_length. Qed.
Lemma vneg_length a : List.length (vneg a) = List.length a.
Proof. apply map_length. Qed.
Lemma vzero_length n : List.length (vzero n) = n.
Proof. apply repeat_length. Qed.
Lemma vconst_length n x : List.length (vconst n x) = n.
Proof. apply repeat_length. Qed.
Lemma mv_length A v : List.length (mv A v) = List.length A.
Proof. apply map_length. Qed.

Lemma dot_nil_l b : dot [] b = 0. Proof. reflexivity. Qed.
Lemma dot_nil_r a : dot a [] = 0. Proof. destruct a; reflexivity. Qed.
Lemma dot_cons x a y b : dot (x :: a) (y :: b) = x * y + dot a b.
Proof. reflexivity. Qed.

Lemma dot_comm a b : dot a b = dot b a.
Proof.
  revert b; induction a as [|x a IH]; intros [|y b]; try reflexivity.
  rewrite !dot_cons, IH; ring.
Qed.

Lemma dot_vadd_l a b c : List.length a = List.length b -> dot (vadd a b) c = dot a c + dot b c.
Proof.
  revert b c; induction a as [|x a IH]; intros [|y b] c H; simpl in H; try lia.
  - rewrite dot_nil_l; unfold vadd, vmap2; simpl. rewrite dot_nil_l; ring.
  - destruct c as [|z c].
    + rewrite !dot_nil_r; ring.
    + change (vadd (x :: a) (y :: b)) with ((x + y) :: vadd a b).
      rewrite !dot_cons, IH by lia. ring.
Qed.

Lemma dot_vadd_r a b c : List.length a = List.length b -> dot c (vadd a b) = dot c a + dot c b.
Proof. intros H. rewrite dot_comm, dot_vadd_l, (dot_comm a), (dot_comm b) by exact H. reflexivity. Qed.

Lemma dot_vscale_l k a c : dot (vscale k a) c = k * dot a c.
Proof.
  revert c; induction a as [|x a IH]; intros [|z c]; simpl; rewrite ?dot_nil_r, ?dot_nil_l; try ring.
  change (vscale k (x :: a)) with (k * x :: vscale k a). rewrite !dot_cons, IH. ring.
Qed.
Lemma dot_vscale_r k a c : dot c (vscale k a) = k * dot c a.
Proof. rewrite dot_comm, dot_vscale_l, dot_comm. reflexivity. Qed.

Lemma vneg_vscale a : vneg a = vscale (-1) a.
Proof. unfold vneg, vscale. apply map_ext. intros; ring. Qed.

Lemma dot_vneg_l a c : dot (vneg a) c = - dot a c.
Proof. rewrite vneg_vscale, dot_vscale_l. ring. Qed.
Lemma dot_vneg_r a c : dot c (vneg a) = - dot c a.
Proof. rewrite dot_comm, dot_vneg_l, dot_comm. reflexivity. Qed.

Lemma dot_vsub_l a b c : List.length a = List.length b -> dot (vsub a b) c = dot a c - dot b c.
Proof.
  revert b c; induction a as [|x a IH]; intros [|y b] c H; simpl in H; try lia.
  - unfold vsub, vmap2; simpl. rewrite !dot_nil_l; ring.
  - destruct c as [|z c].
    + rewrite !dot_nil_r; ring.
    + change (vsub (x :: a) (y :: b)) with ((x - y) :: vsub a b).
      rewrite !dot_cons, IH by lia. ring.
Qed.
Lemma dot_vsub_r a b c : List.length a = List.length b -> dot c (vsub a b) = dot c a - dot c b.
Proof. intros H. rewrite dot_comm, dot_vsub_l, (dot_comm a), (dot_comm b) by exact H. reflexivity. Qed.

Lemma dot_vzero_l n c : dot (vzero n) c = 0.
Proof.
  revert c; induction n as [|n IH]; intros [|z c]; try reflexivity.
  change (vzero (S n)) with (0 :: vzero n). rewrite dot_cons, IH. ring.
Qed.
Lemma dot_vzero_r n c : dot c (vzero n) = 0.
Proof. rewrite dot_comm. apply dot_vzero_l. Qed.

Lemma dot_self_nonneg a : 0 <= dot a a.
Proof.
  induction a as [|x a IH]; [unfold dot; simpl; lra|].
  rewrite dot_cons. nra.
Qed.

Lemma dot_self_zero a : dot a a = 0 -> Forall (fun x => x = 0) a.
Proof.
  induction a as [|x a IH]; intros H; [constructor|].
  rewrite dot_cons in H. pose proof (dot_self_nonneg a).
  assert (x * x = 0 /\ dot a a = 0) as [Hx Ha] by (split; nra).
  constructor; [nra | auto].
Qed.

(** ** matrix facts *)
Lemma vm_length n w A : Forall (fun r => List.length r = n) A -> List.length (vm n w A) = n.
Proof.
  intros H; revert w; induction H as [|r A Hr HA IH]; intros [|x w]; simpl; try apply vzero_length.
  rewrite vadd_length; rewrite IH; [reflexivity|]. rewrite vscale_length. exact Hr.
Qed.

Lemma dot_vm n w A v :
  Forall (fun r => List.length r = n) A -> dot (vm n w A) v = dot w (mv A v).
Proof.
  intros H; revert w; induction H as [|r A Hr HA IH]; intros [|x w]; simpl;
    rewrite ?dot_vzero_l, ?dot_nil_l, ?dot_nil_r; try reflexivity.
  rewrite dot_vadd_l, dot_vscale_l, IH by (rewrite vscale_length, vm_length; auto).
  rewrite dot_cons. reflexivity.
Qed.

Lemma mv_mm n A B v : Forall (fun r => List.length r = n) B -> mv (mm n A B) v = mv A (mv B v).
Proof.
  intros H. unfold mv at 1 2, mm. rewrite map_map. apply map_ext. intros r. apply dot_vm; exact H.
Qed.

Lemma mm_is_mat n r k A B :
  List.length A = r -> is_mat k n B -> is_mat r n (mm n A B).
Proof.
  intros HA [HB1 HB2]. split; [unfold mm; rewrite map_length; exact HA|].
  unfold mm. apply Forall_forall. intros x Hx. apply in_map_iff in Hx as [row [<- _]].
  apply vm_length; exact HB2.
Qed.

Lemma nth_vadd n a b : List.length a = List.length b -> nth n (vadd a b) 0 = nth n a 0 + nth n b 0.
Proof.
  revert a b; induction n as [|n IH]; intros [|x a] [|y b] H; simpl in H; try lia;
    unfold vadd, vmap2 in *; simpl; try ring.
  apply IH. lia.
Qed.
Lemma nth_vscale n k a : nth n (vscale k a) 0 = k * nth n a 0.
Proof.
  revert a; induction n as [|n IH]; intros [|x a]; simpl; try ring. apply IH.
Qed.
Lemma nth_vzero i n : nth i (vzero n) 0 = 0.
Proof. revert i; induction n as [|n IH]; intros [|i]; simpl; auto. Qed.
Lemma nth_vm n w A i :
  Forall (fun r => List.length r = n) A ->
  nth i (vm n w A) 0 = dot w (map (fun r => nth i r 0) A).
Proof.
  intros H; revert w; induction H as [|r A Hr HA IH]; intros [|x w]; simpl;
    rewrite ?dot_nil_l, ?dot_nil_r, ?nth_vzero; try reflexivity.
  rewrite nth_vadd, nth_vscale, IH by (rewrite vscale_length, vm_length; auto).
  rewrite dot_cons. reflexivity.
Qed.

Lemma map_nth_seq (l : vec) : map (fun j => nth j l 0) (seq 0 (List.length l)) = l.
Proof.
  induction l as [|x l IH]; [reflexivity|].
  simpl. f_equal. rewrite <- seq_shift, map_map. exact IH.
Qed.

Lemma list_ext (a b : vec) :
  List.length a = List.length b -> (forall i, (i < List.length a)%nat -> nth i a 0 = nth i b 0) -> a = b.
Proof. intros Hl H. apply (nth_ext _ _ 0 0); auto. Qed.

Lemma mv_tr n A w :
  Forall (fun r => List.length r = n) A -> mv (tr n A) w = vm n w A.
Proof.
  intros H. apply list_ext.
  - rewrite mv_length, vm_length by exact H. unfold tr. rewrite map_length, seq_length. reflexivity.
  - intros i Hi. rewrite nth_vm by exact H. unfold mv, tr in *.
    rewrite map_map in *. rewrite !map_length, seq_length in Hi.
    rewrite nth_indep with (d' := dot (map (fun row => nth 0%nat row 0) A) w) by (rewrite map_length, seq_length; exact Hi).
    rewrite (map_nth (fun j => dot (map (fun row => nth j row 0) A) w)).
    rewrite seq_nth by exact Hi. apply dot_comm.
Qed.

Lemma adjoint n A v w :
  Forall (fun r => List.length r = n) A -> dot (mv (tr n A) w) v = dot w (mv A v).
Proof. intros H. rewrite mv_tr, dot_vm by exact H. reflexivity. Qed.

Lemma unit_row_length n i : List.length (unit_row n i) = n.
Proof. unfold unit_row. rewrite map_length, seq_length. reflexivity. Qed.

Lemma dot_delta_out (f : R) i a k v :
  (i < k)%nat -> dot (map (fun j => if Nat.eqb i j then f else 0) (seq k a)) v = 0.
Proof.
  revert k v; induction a as [|a IH]; intros k v H; [reflexivity|].
  destruct v as [|y v]; [apply dot_nil_r|].
  simpl seq. rewrite map_cons, dot_cons. rewrite IH by lia.
  destruct (Nat.eqb_spec i k); [lia|]. ring.
Qed.

Lemma dot_delta (f : R) i a k v :
  (k <= i)%nat -> (i < k + a)%nat -> List.length v = a ->
  dot (map (fun j => if Nat.eqb i j then f else 0) (seq k a)) v = f * nth (i - k) v 0.
Proof.
  revert k v; induction a as [|a IH]; intros k v Hk Hi Hv; [lia|].
  destruct v as [|y v]; simpl in Hv; [lia|].
  simpl seq. rewrite map_cons, dot_cons.
  destruct (Nat.eqb_spec i k) as [->|Hne].
  - rewrite dot_delta_out by lia. rewrite Nat.sub_diag. simpl. ring.
  - rewrite IH by lia. replace (i - k)%nat with (S (i - S k)) by lia. simpl. ring.
Qed.

Lemma dot_unit_row n i v : (i < n)%nat -> List.length v = n -> dot (unit_row n i) v = nth i v 0.
Proof.
  intros Hi Hv. unfold unit_row. rewrite dot_delta by lia.
  rewrite Nat.sub_0_r. ring.
Qed.

Lemma mv_eye n v : List.length v = n -> mv (eye n) v = v.
Proof.
  intros Hv. unfold mv, eye. rewrite map_map.
  transitivity (map (fun j => nth j v 0) (seq 0 n)); [|rewrite <- Hv; apply map_nth_seq].
  apply map_ext_in. intros i Hi. apply in_seq in Hi. apply dot_unit_row; lia.
Qed.

Lemma mv_mscale k A v : mv (mscale k A) v = vscale k (mv A v).
Proof.
  unfold mv, mscale, vscale. rewrite !map_map. apply map_ext. intros r. apply dot_vscale_l.
Qed.

Lemma mv_mneg A v : mv (mneg A) v = vneg (mv A v).
Proof. unfold mv, mneg, vneg. rewrite !map_map. apply map_ext. intros r. apply dot_vneg_l. Qed.

Lemma mv_madd n A B v :
  is_mat n n A -> is_mat n n B -> mv (madd A B) v = vadd (mv A v) (mv B v).
Proof.
  intros [HA1 HA2] [HB1 HB2].
  assert (Hlen : List.length A = List.length B) by lia. clear HA1 HB1.
  revert B HB2 Hlen; induction HA2 as [|r A Hr HA IH]; intros B HB Hlen;
    destruct HB as [|s B Hs HB]; simpl in Hlen; try lia; [reflexivity|].
  unfold madd, mv in *; simpl. rewrite dot_vadd_l by lia.
  unfold vadd at 2, vmap2; simpl. f_equal. apply IH; auto.
Qed.

Lemma madd_is_mat r c A B : is_mat r c A -> is_mat r c B -> is_mat r c (madd A B).
Proof.
  intros [HA1 HA2] [HB1 HB2]. unfold madd. split.
  - rewrite map_length, combine_length. lia.
  - assert (Hlen : List.length A = List.length B) by lia. clear HA1 HB1.
    revert B HB2 Hlen; induction HA2 as [|x A Hx HA IH]; intros B HB Hlen;
      destruct HB as [|y B Hy HB]; simpl in *; try lia; constructor.
    + rewrite vadd_length; lia.
    + apply IH; auto.
Qed.

Lemma mscale_is_mat r c k A : is_mat r c A -> is_mat r c (mscale k A).
Proof.
  intros [H1 H2]. split; [unfold mscale; rewrite map_length; exact H1|].
  unfold mscale. apply Forall_forall. intros x Hx. apply in_map_iff in Hx as [y [<- Hy]].
  rewrite vscale_length. rewrite Forall_forall in H2; auto.
Qed.

Lemma eye_is_mat n : is_mat n n (eye n).
Proof.
  split; [unfold eye; rewrite map_length, seq_length; reflexivity|].
  unfold eye. apply Forall_forall. intros x Hx. apply in_map_iff in Hx as [y [<- _]]. apply unit_row_length.
Qed.

Lemma mzero_is_mat r c : is_mat r c (mzero r c).
Proof.
  split; [apply repeat_length|]. apply Forall_forall. intros x Hx. apply repeat_spec in Hx as ->. apply vzero_length.
Qed.

Lemma tr_is_mat n A : is_mat n (List.length A) (tr n A).
Proof.
  split; [unfold tr; rewrite map_length, seq_length; reflexivity|].
  unfold tr. apply Forall_forall. intros x Hx. apply in_map_iff in Hx as [y [<- _]]. apply map_length.
Qed.

Lemma mv_mzero r c v : mv (mzero r c) v = vzero r.
Proof.
  unfold mv, mzero. induction r as [|r IH]; simpl; [reflexivity|].
  rewrite dot_vzero_l. change (vzero (S r)) with (0 :: vzero r). f_equal. exact IH.
Qed.

Lemma diag_is_mat d : is_mat (List.length d) (List.length d) (diag d).
Proof.
  split; [unfold diag; rewrite map_length, seq_length; reflexivity|].
  unfold diag. apply Forall_forall. intros x Hx. apply in_map_iff in Hx as [y [<- _]].
  rewrite map_length, seq_length; reflexivity.
Qed.

Lemma mv_diag d v : List.length v = List.length d -> mv (diag d) v = vmul d v.
Proof.
  intros Hv. unfold mv, diag. rewrite map_map.
  apply list_ext.
  - rewrite map_length, seq_length, vmul_length by lia. lia.
  - intros i Hi. rewrite map_length, seq_length in Hi.
    set (g := fun i => dot (map (fun j => if Nat.eqb i j then nth i d 0 else 0) (seq 0 (List.length d))) v).
    rewrite nth_indep with (d' := g 0%nat) by (rewrite map_length, seq_length; exact Hi).
    rewrite (map_nth g). rewrite seq_nth by exact Hi. unfold g. simpl.
    rewrite dot_delta by lia. rewrite Nat.sub_0_r.
    clear g. revert d v Hv Hi; induction i as [|i IH]; intros [|x d] [|y v] Hv Hi; simpl in *; try lia; [reflexivity|].
    unfold vmul, vmap2 in *; simpl. apply IH; lia.
Qed.

Lemma is_matb_spec r c A : is_matb r c A = true <-> is_mat r c A.
Proof.
  unfold is_matb, is_mat. rewrite andb_true_iff, Nat.eqb_eq, forallb_forall, Forall_forall.
  split; intros [H1 H2]; split; auto; intros x Hx; specialize (H2 x Hx); [apply Nat.eqb_eq | apply Nat.eqb_eq]; auto.
Qed.

(** Quadratic form of a Gram matrix. *)
Lemma gram_quad n A v :
  Forall (fun r => List.length r = n) A ->
  dot v (mv (mm n (tr n A) A) v) = dot (mv A v) (mv A v).
Proof.
  intros H. rewrite mv_mm by exact H. rewrite dot_comm, adjoint by exact H. reflexivity.
Qed.

Lemma gram_bilin n A u v :
  Forall (fun r => List.length r = n) A ->
  dot u (mv (mm n (tr n A) A) v) = dot (mv A u) (mv A v).
Proof.
  intros H. rewrite mv_mm by exact H. rewrite dot_comm, adjoint by exact H. apply dot_comm.
Qed.

Lemma Forall2_app_inv_len {A B} (P : A -> B -> Prop) a a' b b' :
  List.length a = List.length b -> Forall2 P (a ++ a') (b ++ b') <-> Forall2 P a b /\ Forall2 P a' b'.
Proof.
  revert b; induction a as [|x a IH]; intros [|y b] H; simpl in H; try lia; simpl.
  - split; [intros HH; split; [constructor | exact HH] | intros [_ HH]; exact HH].
  - split.
    + intros HH; inversion HH as [|? ? ? ? Hx Hr]; subst. apply IH in Hr as [H1 H2]; [|lia].
      split; [constructor; auto | auto].
    + intros [H1 H2]. inversion H1 as [|? ? ? ? Hx Hr]; subst. constructor; auto. apply IH; [lia|auto].
Qed.

Lemma mv_app A B v : mv (A ++ B) v = mv A v ++ mv B v.
Proof. apply map_app. Qed.
