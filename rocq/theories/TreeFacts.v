(** Sums over kinematic trees. *)
From Verif Require Import Base Lin LinFacts Mjx Rot Conf FrameJac JaxComponents SpecTree MotionFacts ConfFacts3.
From Coq Require Import Permutation.
Open Scope R_scope.

Lemma upd_length {A} (l : list A) i f : List.length (upd l i f) = List.length l.
Proof. apply map_seq_length. Qed.
Lemma upd_nth {A} (l : list A) i f d b : (b < List.length l)%nat -> nth b (upd l i f) d = if Nat.eqb b i then f (nth b l d) else nth b l d.
Proof. intros H. unfold upd. now rewrite (nth_map_seq _ _ d) by exact H. Qed.

Section Tree.
Context (m : mjmodel) (Hw : wf_tree m).
Local Notation n := (m_nbody m).
Local Notation par := (parent_body m).
Lemma parent_lt b : (0 < b < n)%nat -> (par b < b)%nat.
Proof. intros H. destruct Hw as (_ & _ & P). specialize (P b H). unfold parent_body. lia. Qed.

(** [i] reaches [b] going up through bodies >= k. *)
Fixpoint reach (fuel k b i : nat) : bool :=
  if Nat.eqb i b then true
  else match fuel with
       | O => false
       | S f => if (i <? k)%nat then false else reach f k b (par i)
       end.
Definition reaches (k b i : nat) : bool := reach i k b i.
Lemma reach_fuel k b : (1 <= k)%nat -> forall f i, (i < n)%nat -> (i <= f)%nat -> reach f k b i = reaches k b i.
Proof.
  intros Hk. unfold reaches. induction f as [f IH] using (well_founded_induction lt_wf). intros i Hi Hf.
  destruct f as [|f]; [replace i with 0%nat by lia; reflexivity|]. destruct i as [|i].
  - cbn [reach]. destruct (Nat.eqb_spec 0 b); [reflexivity|]. destruct (Nat.ltb_spec 0 k); [reflexivity|lia].
  - cbn [reach]. destruct (S i =? b)%nat; [reflexivity|]. destruct (S i <? k)%nat; [reflexivity|].
    pose proof (parent_lt (S i) ltac:(lia)). rewrite IH by lia. rewrite <- (IH i) by lia. reflexivity.
Qed.
Lemma reaches_eq k b i : (1 <= k)%nat -> (i < n)%nat ->
  reaches k b i = if Nat.eqb i b then true else if (i <? k)%nat then false else reaches k b (par i).
Proof.
  intros Hk Hi. unfold reaches at 1. destruct i as [|i].
  - cbn [reach]. destruct (Nat.eqb_spec 0 b); [reflexivity|]. destruct (Nat.ltb_spec 0 k); [reflexivity|lia].
  - cbn [reach]. destruct (S i =? b)%nat; [reflexivity|]. destruct (S i <? k)%nat; [reflexivity|].
    apply reach_fuel; [exact Hk| |]; pose proof (parent_lt (S i) ltac:(lia)); lia.
Qed.
Lemma reaches_top k b i : (n <= k)%nat -> (1 <= k)%nat -> (i < n)%nat -> reaches k b i = Nat.eqb i b.
Proof. intros H Hk Hi. rewrite reaches_eq by assumption. destruct (i =? b)%nat; [reflexivity|]. destruct (Nat.ltb_spec i k); [reflexivity|lia]. Qed.
(** One more level: through [c], to its parent. *)
Lemma reaches_step c b : (1 <= c < n)%nat -> forall i, (i < n)%nat ->
  reaches c b i = (reaches (S c) b i || (Nat.eqb (par c) b && reaches (S c) c i))%bool /\
  (Nat.eqb (par c) b && reaches (S c) c i = true -> reaches (S c) b i = false)%bool.
Proof.
  intros Hc. pose proof (parent_lt c ltac:(lia)) as Pc. induction i as [i IH] using (well_founded_induction lt_wf). intros Hi.
  rewrite (reaches_eq c b i), (reaches_eq (S c) b i), (reaches_eq (S c) c i) by lia.
  destruct (Nat.eqb_spec i b) as [->|Nb].
  - destruct (Nat.eqb_spec (par c) b) as [E|E]; cbn [andb orb]; [|split; [reflexivity|discriminate]].
    destruct (Nat.eqb_spec b c); [lia|]. nb; split; try reflexivity; discriminate.
  - destruct (Nat.ltb_spec i c) as [L|L].
    + destruct (Nat.ltb_spec i (S c)); [|lia]. destruct (Nat.eqb_spec i c); [lia|]. rewrite Bool.andb_false_r. split; [reflexivity|discriminate].
    + destruct (Nat.eqb_spec i c) as [->|Nc].
      * destruct (Nat.ltb_spec c (S c)); [|lia]. rewrite Bool.andb_true_r. cbn [orb]. split; [|reflexivity].
        rewrite reaches_eq by lia. destruct (Nat.eqb_spec (par c) b); [reflexivity|]. destruct (Nat.ltb_spec (par c) c); [reflexivity|lia].
      * destruct (Nat.ltb_spec i (S c)); [lia|]. pose proof (parent_lt i ltac:(lia)). apply IH; lia.
Qed.
Lemma reaches_subtree b i : (i < n)%nat -> (reaches 1 b i = true <-> in_subtree m b i).
Proof.
  induction i as [i IH] using (well_founded_induction lt_wf). intros Hi. rewrite reaches_eq by lia. split.
  - destruct (Nat.eqb_spec i b) as [->|N]; [constructor|]. destruct (Nat.ltb_spec i 1) as [L|L]; [discriminate|]. pose proof (parent_lt i ltac:(lia)).
    intros H'. apply st_child; [lia|]. apply IH; [lia|lia|exact H'].
  - intros H. destruct (Nat.eqb_spec i b) as [->|N]; [reflexivity|]. inversion H as [|? P S]; subst; [congruence|]. destruct (Nat.ltb_spec i 1); [lia|].
    pose proof (parent_lt i ltac:(lia)). apply IH; [lia|lia|exact S].
Qed.

(** *** Sums in a commutative monoid *)
Context {A : Type} (add : A -> A -> A) (zero : A).
Context (addC : forall x y, add x y = add y x) (addA : forall x y z, add x (add y z) = add (add x y) z) (add0 : forall x, add zero x = x).
Definition msum (f : nat -> A) (ds : list nat) : A := fold_right (fun i s => add (f i) s) zero ds.
Lemma msum_ext f g ds : (forall i, In i ds -> f i = g i) -> msum f ds = msum g ds.
Proof. unfold msum. induction ds as [|i ds IH]; intros H; cbn; [reflexivity|]. rewrite H by (left; auto). f_equal. apply IH. intros; apply H; now right. Qed.
Lemma msum_add f g ds : msum (fun i => add (f i) (g i)) ds = add (msum f ds) (msum g ds).
Proof.
  unfold msum. induction ds as [|i ds IH]; cbn; [now rewrite add0|]. rewrite IH. rewrite <- !addA. f_equal. rewrite !addA. f_equal. apply addC.
Qed.
Lemma msum_zero ds : msum (fun _ => zero) ds = zero.
Proof. unfold msum. induction ds as [|i ds IH]; cbn; [reflexivity|]. now rewrite IH, add0. Qed.
Lemma msum_perm f ds es : Permutation ds es -> msum f ds = msum f es.
Proof. unfold msum. induction 1; cbn; try congruence; rewrite !addA; f_equal; apply addC. Qed.
Lemma msum_filter f (p : nat -> bool) ds : msum (fun i => if p i then f i else zero) ds = msum f (filter p ds).
Proof. unfold msum. induction ds as [|i ds IH]; cbn; [reflexivity|]. destruct (p i); cbn; rewrite IH; [reflexivity|apply add0]. Qed.
Lemma msum_single f b k : (b < k)%nat -> msum (fun i => if Nat.eqb i b then f i else zero) (seq 0 k) = f b.
Proof.
  intros H. rewrite (msum_perm _ _ (b :: filter (fun i => negb (Nat.eqb i b)) (seq 0 k))).
  - cbn. rewrite Nat.eqb_refl. fold (msum (fun i => if Nat.eqb i b then f i else zero) (filter (fun i => negb (Nat.eqb i b)) (seq 0 k))).
    rewrite (msum_ext _ (fun _ => zero)); [rewrite msum_zero, addC; apply add0|]. intros i Hi. apply filter_In in Hi. destruct Hi as [_ Hi]. now destruct (i =? b)%nat.
  - apply NoDup_Permutation; [apply seq_NoDup| |].
    + constructor; [|apply NoDup_filter, seq_NoDup]. intros Hi. apply filter_In in Hi. rewrite Nat.eqb_refl in Hi. destruct Hi; discriminate.
    + intros i. split.
      * intros Hi. destruct (Nat.eqb_spec i b) as [->|N]; [left; reflexivity|]. right. apply filter_In. split; [exact Hi|]. now destruct (Nat.eqb_spec i b).
      * intros [->|Hi]; [apply in_seq; lia|]. now apply filter_In in Hi.
Qed.

Definition stage (x : nat -> A) (k b : nat) : A := msum (fun i => if reaches k b i then x i else zero) (seq 0 n).
Lemma stage_step x c b : (1 <= c < n)%nat -> stage x c b = if Nat.eqb (par c) b then add (stage x (S c) b) (stage x (S c) c) else stage x (S c) b.
Proof.
  intros Hc. unfold stage. destruct (Nat.eqb_spec (par c) b) as [E|E].
  - rewrite <- msum_add. apply msum_ext. intros i Hi. apply in_seq in Hi. destruct (reaches_step c b Hc i ltac:(lia)) as [R X]. rewrite R. rewrite E, Nat.eqb_refl in X |- *. cbn [andb] in *.
    destruct (reaches (S c) c i).
    + rewrite (X eq_refl). cbn. now rewrite add0.
    + rewrite Bool.orb_false_r. destruct (reaches (S c) b i); [rewrite addC|]; now rewrite add0.
  - apply msum_ext. intros i Hi. apply in_seq in Hi. destruct (reaches_step c b Hc i ltac:(lia)) as [R X]. rewrite R. destruct (Nat.eqb_spec (par c) b); [contradiction|]. cbn [andb]. now rewrite Bool.orb_false_r.
Qed.
Lemma scan_stage x d : forall k acc, (1 <= k <= n)%nat -> List.length acc = n -> (forall b, (b < n)%nat -> nth b acc d = stage x k b) ->
  List.length (body_scan add (m_body_parentid m) k acc) = n /\ forall b, (b < n)%nat -> nth b (body_scan add (m_body_parentid m) k acc) d = stage x 1 b.
Proof.
  induction k as [|k IH]; intros acc Hk La I; [lia|]. destruct k as [|c]; [cbn; auto|].
  change (body_scan add (m_body_parentid m) (S (S c)) acc) with
    (body_scan add (m_body_parentid m) (S c) (match nth_error acc (S c), nth_error (m_body_parentid m) (S c) with
         | Some x, Some p => upd acc (Z.to_nat p) (fun y => add y x) | _, _ => acc end)).
  pose proof Hw as (_ & Lp & _).
  rewrite (nth_error_nth' acc d) by lia. rewrite (nth_error_nth' (m_body_parentid m) 0%Z) by lia.
  fold (par (S c)). apply IH; [lia|now rewrite upd_length|]. intros b Hb. rewrite upd_nth by lia. rewrite !I by lia.
  rewrite (stage_step x (S c) b ltac:(lia)). rewrite Nat.eqb_sym. reflexivity.
Qed.
Lemma tree_sum xs d : List.length xs = n ->
  List.length (body_tree_sum add m xs) = n /\
  forall b ds, (b < n)%nat -> subtree_list m b ds -> nth b (body_tree_sum add m xs) d = msum (fun i => nth i xs d) ds.
Proof.
  intros Lx. unfold body_tree_sum. rewrite Lx. pose proof Hw as (Hn & _).
  destruct (scan_stage (fun i => nth i xs d) d n xs) as [L S]; [lia|exact Lx| |].
  - intros b Hb. unfold stage. rewrite (msum_ext _ (fun i => if Nat.eqb i b then nth i xs d else zero)); [now rewrite (msum_single (fun i => nth i xs d))|].
    intros i Hi. apply in_seq in Hi. now rewrite reaches_top by lia.
  - split; [exact L|]. intros b ds Hb (ND & Hds). rewrite S by exact Hb. unfold stage. rewrite msum_filter. apply msum_perm.
    apply NoDup_Permutation; [apply NoDup_filter, seq_NoDup|exact ND|]. intros i. rewrite filter_In, in_seq, Hds. split.
    + intros [H1 H2]. split; [lia|]. apply reaches_subtree; [lia|exact H2].
    + intros [H1 H2]. split; [lia|]. now apply reaches_subtree.
Qed.
End Tree.

(** A listing of every subtree exists. *)
Lemma subtree_list_exists m b : wf_tree m -> exists ds, subtree_list m b ds.
Proof.
  intros Hw. exists (filter (fun i => reaches m 1 b i) (seq 0 (m_nbody m))). split; [apply NoDup_filter, seq_NoDup|].
  intros i. rewrite filter_In, in_seq. split.
  - intros [H1 H2]. split; [lia|]. apply (reaches_subtree m Hw); [lia|exact H2].
  - intros [H1 H2]. split; [lia|]. now apply (reaches_subtree m Hw).
Qed.
Lemma root_subtree m : wf_tree m -> forall i, (i < m_nbody m)%nat -> in_subtree m 0 i.
Proof.
  intros Hw. induction i as [i IH] using (well_founded_induction lt_wf). intros Hi. destruct i as [|i]; [constructor|].
  apply st_child; [lia|]. pose proof (parent_lt m Hw (S i) ltac:(lia)). apply IH; lia.
Qed.

(** ** C67 *)
Lemma com_addC a b : com_add a b = com_add b a.
Proof. destruct a as [[x y z] u], b as [[x' y' z'] u']. unfold com_add, v3_add. cbn. f_equal; [f_equal|]; ring. Qed.
Lemma com_addA a b c : com_add a (com_add b c) = com_add (com_add a b) c.
Proof. destruct a as [[x y z] u], b as [[x' y' z'] u'], c as [[x2 y2 z2] u2]. unfold com_add, v3_add. cbn. f_equal; [f_equal|]; ring. Qed.
Lemma com_add0 a : com_add (v3_zero, 0) a = a.
Proof. destruct a as [[x y z] u]. unfold com_add, v3_add. cbn. f_equal; [f_equal|]; ring. Qed.
Lemma combine_nth_def {A B} (l : list A) (l' : list B) i a b : List.length l = List.length l' -> nth i (combine l l') (a, b) = (nth i l a, nth i l' b).
Proof. intros H. now apply combine_nth. Qed.
Lemma subtree_coms_spec m xs : wf_tree m -> List.length xs = m_nbody m -> List.length (m_body_mass m) = m_nbody m ->
  List.length (subtree_coms m xs) = m_nbody m /\
  forall b ds, (b < m_nbody m)%nat -> subtree_list m b ds ->
    nth b (subtree_coms m xs) v3_zero = (if Rlt_dec (mass_of m ds) mjMINVAL then nth b xs v3_zero else v3_scale (/ mass_of m ds) (moment_of m xs ds)).
Proof.
  intros Hw Lx Lm. unfold subtree_coms. set (ys := map (fun p : v3 * R => (v3_scale (snd p) (fst p), snd p)) (combine xs (m_body_mass m))).
  assert (Ly : List.length ys = m_nbody m) by (unfold ys; rewrite map_length, combine_length; lia).
  destruct (tree_sum m Hw com_add (v3_zero, 0) com_addC com_addA com_add0 ys (v3_zero, 0) Ly) as [Ls S]. set (s := body_tree_sum com_add m ys) in *.
  split; [rewrite map_length, combine_length; lia|]. intros b ds Hb Hds.
  set (F := fun p : v3 * (v3 * R) => let '(x, (pos, mass)) := p in if Rlt_dec mass mjMINVAL then x else v3_scale (/ Rmax mass mjMINVAL) pos).
  rewrite (nth_indep _ v3_zero (F (v3_zero, (v3_zero, 0)))) by (rewrite map_length, combine_length; lia). rewrite map_nth.
  rewrite (combine_nth_def xs s b v3_zero (v3_zero, 0)) by lia. rewrite (S b ds Hb Hds).
  assert (E : msum com_add (v3_zero, 0) (fun i => nth i ys (v3_zero, 0)) ds = (moment_of m xs ds, mass_of m ds)).
  { unfold msum, moment_of, mass_of. destruct Hds as [_ Hin]. assert (Hb' : forall i, In i ds -> (i < m_nbody m)%nat) by (intros i Hi; now apply Hin). clear -Hb' Lx Lm Ly. induction ds as [|i ds IH]; [reflexivity|].
    cbn [fold_right]. rewrite IH by (intros; apply Hb'; now right). unfold com_add at 1. cbn [fst snd].
    assert (N : nth i ys (v3_zero, 0) = (v3_scale (nth i (m_body_mass m) 0) (nth i xs v3_zero), nth i (m_body_mass m) 0)).
    { set (G := fun p : v3 * R => (v3_scale (snd p) (fst p), snd p)). unfold ys. fold G. rewrite (nth_indep _ (v3_zero, 0) (G (v3_zero, 0))) by (rewrite map_length, combine_length; specialize (Hb' i (or_introl eq_refl)); lia). rewrite map_nth.
      rewrite combine_nth_def by lia. reflexivity. }
    rewrite N. reflexivity. }
  rewrite E. unfold F. destruct (Rlt_dec (mass_of m ds) mjMINVAL) as [T|T]; [reflexivity|]. rewrite Rmax_left by lra. reflexivity.
Qed.
