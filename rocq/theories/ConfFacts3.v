(** The matrix of [jac_dq2v] and the rate of change of a configuration. *)
From Verif Require Import Base Lin LinFacts Mjx SpecJoint JointFacts Rot Conf SpecMotion MotionFacts MotionFacts2 SpecConf ConfFacts ConfFacts2.
Open Scope R_scope.

Definition cell (M : mat) (i j : nat) : R := nth j (nth i M []) 0.
Lemma nth_combine_seq {A} (l : list A) d : forall k i, (i < List.length l)%nat -> nth i (combine (seq k (List.length l)) l) (0%nat, d) = ((k + i)%nat, nth i l d).
Proof. induction l as [|x l IH]; intros k [|i] H; cbn in *; try lia; [now rewrite Nat.add_0_r|]. rewrite IH by lia. f_equal. lia. Qed.
Lemma nth_map_seq {A B} (f : nat * A -> B) (l : list A) d d' i : (i < List.length l)%nat ->
  nth i (map f (combine (seq 0 (List.length l)) l)) d' = f (i, nth i l d).
Proof.
  intros H. rewrite (nth_indep _ d' (f (0%nat, d))) by (rewrite map_length, combine_length, seq_length; lia).
  rewrite map_nth, nth_combine_seq by exact H. reflexivity.
Qed.
Lemma map_seq_length {A B} (f : nat * A -> B) (l : list A) : List.length (map f (combine (seq 0 (List.length l)) l)) = List.length l.
Proof. rewrite map_length, combine_length, seq_length. lia. Qed.

Lemma set_row_length c0 b row : List.length (set_row c0 b row) = List.length row.
Proof. apply map_seq_length. Qed.
Lemma set_row_nth c0 b row j : (j < List.length row)%nat ->
  nth j (set_row c0 b row) 0 = if (c0 <=? j)%nat && (j <? c0 + List.length b)%nat then nth (j - c0) b 0 else nth j row 0.
Proof. intros H. unfold set_row. now rewrite (nth_map_seq _ _ 0) by exact H. Qed.
Lemma mat_row R C M i : is_mat R C M -> (i < R)%nat -> List.length (nth i M []) = C.
Proof. intros [L F] H. rewrite Forall_forall in F. apply F, nth_In. lia. Qed.
Lemma set_block_mat R C r0 c0 B M : is_mat R C M -> is_mat R C (set_block r0 c0 B M).
Proof.
  intros [L F]. split; [unfold set_block; now rewrite map_seq_length|]. apply Forall_forall. intros x Hx. unfold set_block in Hx.
  apply in_map_iff in Hx. destruct Hx as ((i & row) & <- & Hp). apply in_combine_r in Hp. rewrite Forall_forall in F. specialize (F _ Hp).
  cbn [fst snd]. destruct ((r0 <=? i)%nat && _); [rewrite set_row_length|]; exact F.
Qed.
Lemma set_block_ent R C r0 c0 B h w M i j : is_mat R C M -> is_mat h w B -> (i < R)%nat -> (j < C)%nat ->
  cell (set_block r0 c0 B M) i j =
  if (r0 <=? i)%nat && (i <? r0 + h)%nat && ((c0 <=? j)%nat && (j <? c0 + w)%nat) then cell B (i - r0) (j - c0) else cell M i j.
Proof.
  intros HM HB Hi Hj. pose proof (mat_row _ _ _ _ HM Hi) as Lr. destruct HM as [L F]. pose proof HB as [LB FB]. unfold cell, set_block.
  rewrite (nth_map_seq _ _ []) by lia. cbn [fst snd]. rewrite LB. destruct ((r0 <=? i)%nat && (i <? r0 + h)%nat) eqn:E; cbn [andb]; [|reflexivity].
  rewrite set_row_nth by lia. apply andb_prop in E. destruct E as [E1 E2]. apply Nat.leb_le in E1. apply Nat.ltb_lt in E2.
  rewrite (mat_row h w B (i - r0) HB) by lia. reflexivity.
Qed.
Lemma ent_mzero r c i j : cell (mzero r c) i j = 0.
Proof.
  unfold cell, mzero. destruct (Nat.lt_ge_cases i r) as [H|H].
  - rewrite (nth_indep _ [] (vzero c)) by (rewrite repeat_length; exact H). rewrite nth_repeat. apply nth_vzero.
  - rewrite (nth_overflow (repeat _ _)) by (rewrite repeat_length; exact H). destruct j; reflexivity.
Qed.
Lemma att_mat e : is_mat 4 3 (attitude_jacobian e).
Proof. split; [reflexivity|]. repeat constructor. Qed.
Lemma one_mat : is_mat 1 1 [[1]]. Proof. split; [reflexivity|]. repeat constructor. Qed.

(** Entry (i, j) of the block of a joint of type [t] whose address is [a]. *)
Definition blk (t : jnttype) (q : list R) (a i j : nat) : R :=
  match t with
  | JFree => if (i <? 3)%nat then (if (j <? 3)%nat then cell (eye 3) i j else 0)
             else if (j <? 3)%nat then 0 else cell (attitude_jacobian (quat_in q (a + 3))) (i - 3) (j - 3)
  | JBall => cell (attitude_jacobian (quat_in q a)) i j
  | _ => 1
  end.
Definition joint_mat (t : jnttype) (q : list R) (adr row col : nat) (J : mat) : mat :=
  match t with
  | JFree => set_block (row + 3) (col + 3) (attitude_jacobian (quat_in q (adr + 3))) (set_block row col (eye 3) J)
  | JBall => set_block row col (attitude_jacobian (quat_in q adr)) J
  | _ => set_block row col [[1]] J
  end.
Lemma joint_mat_mat R C t q adr row col J : is_mat R C J -> is_mat R C (joint_mat t q adr row col J).
Proof. intros H. destruct t; cbn [joint_mat]; now repeat apply set_block_mat. Qed.
Ltac nb := repeat match goal with
  | |- context [(?a <=? ?b)%nat] => destruct (Nat.leb_spec a b)
  | |- context [(?a <? ?b)%nat] => destruct (Nat.ltb_spec a b)
  end; cbn [andb]; try lia.
Lemma joint_mat_in R C t q adr row col J i j : is_mat R C J -> (row + jnt_nq t <= R)%nat -> (col + jnt_nv t <= C)%nat ->
  (forall i j, (row <= i)%nat -> (col <= j)%nat -> cell J i j = 0) -> (i < jnt_nq t)%nat -> (j < jnt_nv t)%nat ->
  cell (joint_mat t q adr row col J) (row + i) (col + j) = blk t q adr i j.
Proof.
  intros HJ HR HC Z Hi Hj. destruct t; cbn [joint_mat blk jnt_nq jnt_nv] in *.
  - rewrite (set_block_ent R C _ _ _ 4 3) by (try apply set_block_mat; try apply att_mat; try assumption; lia).
    rewrite (set_block_ent R C _ _ _ 3 3) by (try assumption; try apply eye_is_mat; lia).
    nb; repeat match goal with |- context [(?a + ?b - ?a)%nat] => replace (a + b - a)%nat with b by lia end; try reflexivity.
    + replace (row + i - (row + 3))%nat with (i - 3)%nat by lia. replace (col + j - (col + 3))%nat with (j - 3)%nat by lia. reflexivity.
    + apply Z; lia.
    + apply Z; lia.
  - rewrite (set_block_ent R C _ _ _ 4 3) by (try apply att_mat; try assumption; lia). nb. f_equal; lia.
  - rewrite (set_block_ent R C _ _ _ 1 1) by (try apply one_mat; try assumption; lia). nb. replace (row + i - row)%nat with 0%nat by lia. replace (col + j - col)%nat with 0%nat by lia. reflexivity.
  - rewrite (set_block_ent R C _ _ _ 1 1) by (try apply one_mat; try assumption; lia). nb. replace (row + i - row)%nat with 0%nat by lia. replace (col + j - col)%nat with 0%nat by lia. reflexivity.
Qed.
Lemma joint_mat_out R C t q adr row col J i j : is_mat R C J -> (i < R)%nat -> (j < C)%nat ->
  (i < row \/ row + jnt_nq t <= i \/ j < col \/ col + jnt_nv t <= j)%nat ->
  cell (joint_mat t q adr row col J) i j = cell J i j.
Proof.
  intros HJ Hi Hj O. destruct t; cbn [joint_mat jnt_nq jnt_nv] in *.
  - rewrite (set_block_ent R C _ _ _ 4 3) by (try apply set_block_mat; try apply att_mat; try assumption; lia).
    rewrite (set_block_ent R C _ _ _ 3 3) by (try assumption; try apply eye_is_mat; lia). nb; reflexivity.
  - rewrite (set_block_ent R C _ _ _ 4 3) by (try apply att_mat; try assumption; lia). nb; reflexivity.
  - rewrite (set_block_ent R C _ _ _ 1 1) by (try apply one_mat; try assumption; lia). nb; reflexivity.
  - rewrite (set_block_ent R C _ _ _ 1 1) by (try apply one_mat; try assumption; lia). nb; reflexivity.
Qed.

Lemma jac_from_spec R C q ts : forall row col J, is_mat R C J -> (row + total jnt_nq ts <= R)%nat -> (col + total jnt_nv ts <= C)%nat -> (row + total jnt_nq ts <= List.length q)%nat ->
  (forall i j, (row <= i)%nat -> (col <= j)%nat -> cell J i j = 0) ->
  exists E, jac_from (combine ts (adrs jnt_nq row ts)) row col q J = Ok E /\ is_mat R C E /\
  (forall i j, (i < R)%nat -> (j < C)%nat -> (i < row \/ j < col)%nat -> cell E i j = cell J i j) /\
  (forall a t i j, nth_error ts a = Some t -> (i < jnt_nq t)%nat -> (col <= j)%nat -> (j < C)%nat ->
     cell E (row + pos jnt_nq ts a + i) j =
     if (col + pos jnt_nv ts a <=? j)%nat && (j <? col + pos jnt_nv ts a + jnt_nv t)%nat then blk t q (row + pos jnt_nq ts a) i (j - (col + pos jnt_nv ts a)) else 0).
Proof.
  induction ts as [|t ts IH]; intros row col J HJ HR HC Hq Z.
  - exists J. split; [reflexivity|]. split; [exact HJ|]. split; [reflexivity|]. intros [|a] t i j H; discriminate.
  - assert (T : forall size, total size (t :: ts) = (size t + total size ts)%nat) by reflexivity. rewrite !T in *.
    destruct (IH (row + jnt_nq t)%nat (col + jnt_nv t)%nat (joint_mat t q row row col J)) as (E & HE & ME & Out & In).
    { now apply joint_mat_mat. } { lia. } { lia. } { lia. }
    { intros i j Hi Hj. destruct (Nat.lt_ge_cases i R) as [Ri|Ri].
      - destruct (Nat.lt_ge_cases j C) as [Cj|Cj]; [rewrite (joint_mat_out R C) by (try assumption; lia); apply Z; lia|].
        unfold cell. apply nth_overflow. rewrite (mat_row R C _ _ (joint_mat_mat R C t q row row col J HJ) Ri). exact Cj.
      - unfold cell. destruct (joint_mat_mat R C t q row row col J HJ) as [L _]. rewrite (nth_overflow _ _ (n := i)) by lia. destruct j; reflexivity. }
    exists E. split; [|split; [exact ME|split]].
    + rewrite <- HE. cbn [adrs combine jac_from]. destruct t; cbn [jnt_nq jnt_nv joint_mat] in *; try reflexivity; rewrite quat_at_nth by lia; reflexivity.
    + intros i j Hi Hj O. rewrite Out by lia. apply (joint_mat_out R C); try assumption; lia.
    + intros [|a] t' i j Ha Hi Hc Hj.
      * injection Ha as <-. change (pos ?s (t :: ts) 0) with 0%nat. rewrite !Nat.add_0_r. rewrite Out by lia.
        destruct ((col <=? j)%nat && (j <? col + jnt_nv t)%nat) eqn:B.
        -- apply andb_prop in B. destruct B as [B1 B2]. apply Nat.leb_le in B1. apply Nat.ltb_lt in B2.
           replace j with (col + (j - col))%nat at 1 by lia. apply (joint_mat_in R C); try assumption; lia.
        -- rewrite (joint_mat_out R C); try assumption; try lia; [apply Z; lia|]. revert B. nb; discriminate.
      * cbn in Ha. assert (P : forall size, pos size (t :: ts) (S a) = (size t + pos size ts a)%nat) by reflexivity. rewrite !P.
        rewrite !Nat.add_assoc. destruct (Nat.lt_ge_cases j (col + jnt_nv t)) as [Cj|Cj].
        -- pose proof (pos_end jnt_nq ts a t' Ha). rewrite Out by lia. rewrite (joint_mat_out R C) by (try assumption; lia). rewrite Z by lia. nb. reflexivity.
        -- apply In; auto.
Qed.

(** The matrix: joint by joint. *)
Lemma jac_dq2v_spec m q : wf_joints m -> List.length q = m_nq m ->
  exists E, jac_dq2v m q = Ok E /\ is_mat (m_nq m) (m_nv m) E /\
  forall a t i j, joint_type m a t -> (i < jnt_nq t)%nat -> (j < m_nv m)%nat ->
    cell E (qpos_of m a + i) j = if (dof_of m a <=? j)%nat && (j <? dof_of m a + jnt_nv t)%nat then blk t q (qpos_of m a) i (j - dof_of m a) else 0.
Proof.
  intros Hw Hq. pose proof Hw as (_ & Ha & _ & Hnq & Hnv & _). unfold jac_dq2v. rewrite Ha.
  destruct (jac_from_spec (m_nq m) (m_nv m) q (m_jnt_type m) 0 0 (mzero (m_nq m) (m_nv m))) as (E & HE & ME & _ & In); try (cbn; lia).
  { apply mzero_is_mat. } { intros; apply ent_mzero. }
  exists E. split; [exact HE|]. split; [exact ME|]. intros a t i j Hj Hi Hc. rewrite (qpos_pos m Hw a t Hj), (dof_pos m Hw a t Hj). apply In; auto; lia.
Qed.

(** A row that vanishes outside a window only sees the window of the vector. *)
Lemma vsum_app a b : vsum (a ++ b) = vsum a + vsum b.
Proof. induction a as [|x a IH]; cbn; [ring|]. rewrite IH. ring. Qed.
Lemma dot_window k n : forall r v, List.length r = n -> List.length v = n -> (k <= n)%nat -> (forall j, (k <= j < n)%nat -> nth j r 0 = 0) -> dot r v = dot (firstn k r) v.
Proof.
  revert n. induction k as [|k IH]; intros n r v Lr Lv Hk Z.
  - cbn [firstn]. rewrite dot_nil_l. revert n v Lr Lv Hk Z. induction r as [|x r IHr]; intros n v Lr Lv _ Z; [apply dot_nil_l|].
    destruct v as [|y v]; [apply dot_nil_r|]. rewrite dot_cons. cbn in Lr. rewrite (IHr (List.length r) v); [|reflexivity|cbn in Lv; lia|lia|intros j Hj; apply (Z (S j)); lia].
    specialize (Z 0%nat ltac:(lia)). cbn in Z. rewrite Z. ring.
  - destruct r as [|x r], v as [|y v]; cbn in Lr, Lv; try lia. cbn [firstn]. rewrite !dot_cons. f_equal. apply (IH (List.length r)); [reflexivity|lia|lia|]. intros j Hj. apply (Z (S j)). lia.
Qed.
Lemma dot_slice c k n r v : List.length r = n -> List.length v = n -> (c + k <= n)%nat ->
  (forall j, (j < n)%nat -> (j < c \/ c + k <= j)%nat -> nth j r 0 = 0) -> dot r v = dot (slice c k r) (slice c k v).
Proof.
  revert n r v. induction c as [|c IH]; intros n r v Lr Lv H Z.
  - unfold slice. cbn [skipn]. rewrite (dot_window k n r v Lr Lv) by (try lia; intros j Hj; apply Z; lia).
    clear. revert r v. induction k as [|k IH]; intros [|x r] [|y v]; cbn [firstn]; rewrite ?dot_nil_l, ?dot_nil_r; try reflexivity. rewrite !dot_cons. now rewrite IH.
  - destruct r as [|x r], v as [|y v]; cbn in Lr, Lv; try lia.
    rewrite dot_cons. pose proof (Z 0%nat ltac:(lia) ltac:(lia)) as Z0. cbn in Z0. rewrite Z0, Rmult_0_l, Rplus_0_l. unfold slice. cbn [skipn]. apply (IH (List.length r)); [reflexivity|lia|lia|]. intros j Hj O. apply (Z (S j)); lia.
Qed.
Lemma mv_nth A v i : (i < List.length A)%nat -> nth i (mv A v) 0 = dot (nth i A []) v.
Proof. intros H. unfold mv. rewrite (nth_indep _ 0 (dot [] v)) by (now rewrite map_length). now rewrite (map_nth (fun r => dot r v)). Qed.

Lemma slice3 (l : list R) a : (a + 3 <= List.length l)%nat -> slice a 3 l = [nth a l 0; nth (a + 1) l 0; nth (a + 2) l 0].
Proof.
  intros H. pose proof (slice_length a 3 l H) as L. assert (N := fun i Hi => slice_nth a 3 i l 0 Hi).
  destruct (slice a 3 l) as [|x [|y [|z [|? ?]]]]; try discriminate. pose proof (N 0%nat ltac:(lia)). pose proof (N 1%nat ltac:(lia)). pose proof (N 2%nat ltac:(lia)).
  rewrite Nat.add_0_r in *. cbn in *. congruence.
Qed.
Lemma rate_spec m q v E : wf_joints m -> List.length q = m_nq m -> List.length v = m_nv m -> jac_dq2v m q = Ok E ->
  is_mat (m_nq m) (m_nv m) E /\
  (forall j, scalar_joint m j -> nth (qpos_of m j) (mv E v) 0 = nth (dof_of m j) v 0) /\
  (forall j, free_joint m j -> vec_in (mv E v) (qpos_of m j) = vec_in v (dof_of m j)) /\
  (forall j a b, quat_joint m j a b -> quat_in (mv E v) a = q_mul (quat_in q a) (q_pure (vec_in v b))).
Proof.
  intros Hw Hq Hv HE. destruct (jac_dq2v_spec m q Hw Hq) as (E' & HE' & ME & B). rewrite HE in HE'. injection HE' as <-. split; [exact ME|].
  assert (ROW : forall a t i, joint_type m a t -> (i < jnt_nq t)%nat -> nth (qpos_of m a + i) (mv E v) 0 = dot (map (blk t q (qpos_of m a) i) (seq 0 (jnt_nv t))) (slice (dof_of m a) (jnt_nv t) v)).
  { intros a t i Ha Hi. pose proof (qpos_end m Hw a t Ha) as E1. pose proof (dof_end m Hw a t Ha) as E2. pose proof ME as [LE _]. rewrite mv_nth by lia.
    assert (Lr : List.length (nth (qpos_of m a + i) E []) = m_nv m) by (apply (mat_row (m_nq m)); [exact ME|lia]).
    rewrite (dot_slice (dof_of m a) (jnt_nv t) (m_nv m)); [|exact Lr|exact Hv|lia|].
    - f_equal. apply list_ext; [rewrite slice_length by lia; now rewrite map_length, seq_length|]. intros k Hk. rewrite slice_length in Hk by lia. rewrite slice_nth by exact Hk.
      change (nth (dof_of m a + k) (nth (qpos_of m a + i) E []) 0) with (cell E (qpos_of m a + i) (dof_of m a + k)). rewrite (B a t i) by (auto; lia). nb.
      rewrite (nth_indep _ 0 (blk t q (qpos_of m a) i 0)) by (now rewrite map_length, seq_length). rewrite map_nth, seq_nth by exact Hk. f_equal. lia.
    - intros j Hj O. change (cell E (qpos_of m a + i) j = 0). rewrite (B a t i) by auto. nb; reflexivity. }
  split; [|split].
  - intros j (t & Hj & Hs). pose proof (dof_end m Hw j t Hj) as E2. rewrite <- (Nat.add_0_r (qpos_of m j)). rewrite (ROW j t 0%nat Hj) by (destruct t; cbn; lia).
    assert (E9 : jnt_nv t = 1%nat /\ blk t q (qpos_of m j) 0 = (fun _ => 1)) by (destruct t; try discriminate; auto). destruct E9 as [E3 ->]. rewrite E3 in *. rewrite slice1 by lia. cbn. unfold dot. cbn. ring.
  - intros j Hj. pose proof (dof_end m Hw j JFree Hj) as E2. cbn [jnt_nv] in E2. unfold vec_in. rewrite <- (Nat.add_0_r (qpos_of m j)) at 1. rewrite !(ROW j JFree) by (auto; cbn; lia).
    cbn [jnt_nv seq map blk Nat.ltb Nat.leb]. unfold dot, vmul, vmap2.
    assert (S6 : slice (dof_of m j) 6 v = slice (dof_of m j) 3 v ++ slice (dof_of m j + 3) 3 v).
    { unfold slice. rewrite <- skipn_twice. rewrite <- (firstn_skipn 3 (skipn (dof_of m j) v)) at 1. rewrite firstn_app, firstn_firstn, firstn_length, skipn_length. replace (6 - Nat.min 3 (List.length v - dof_of m j))%nat with 3%nat by lia. reflexivity. }
    rewrite S6, !slice3 by lia. cbn. f_equal; ring.
  - intros j a b [(Hj & -> & ->)|(Hj & -> & ->)]; pose proof (dof_end m Hw j _ Hj) as E2; cbn [jnt_nv] in E2; unfold quat_in at 1.
    + rewrite <- !Nat.add_assoc. rewrite !(ROW j JFree) by (auto; cbn; lia).
      cbn [jnt_nv seq map blk Nat.ltb Nat.leb Nat.add Nat.sub].
      assert (S6 : slice (dof_of m j) 6 v = slice (dof_of m j) 3 v ++ slice (dof_of m j + 3) 3 v).
      { unfold slice. rewrite <- skipn_twice. rewrite <- (firstn_skipn 3 (skipn (dof_of m j) v)) at 1. rewrite firstn_app, firstn_firstn, firstn_length, skipn_length. replace (6 - Nat.min 3 (List.length v - dof_of m j))%nat with 3%nat by lia. reflexivity. }
      rewrite S6, !slice3 by lia. unfold dot, vmul, vmap2, q_mul, q_pure, vec_in, cell, attitude_jacobian, q_im. cbn. f_equal; ring.
    + rewrite <- (Nat.add_0_r (qpos_of m j)) at 1. rewrite !(ROW j JBall) by (auto; cbn; lia). cbn [jnt_nv seq map blk]. rewrite slice3 by lia.
      unfold dot, vmul, vmap2, q_mul, q_pure, vec_in, cell, attitude_jacobian, q_im. cbn. f_equal; ring.
Qed.
