(** A continuous function on a closed bounded set of vectors has a minimum. *)
From Coq Require Import Reals Lra Lia List Classical.
From Coquelicot Require Import Coquelicot.
From Verif Require Import Base Lin LinFacts.
Import ListNotations.
Open Scope R_scope.

Definition near (d : R) (x y : vec) : Prop := Forall2 (fun a b => Rabs (a - b) < d) x y.

(** Vectors as tuples. *)
Fixpoint tup (n : nat) (v : vec) : Tn n R :=
  match n with O => tt | S n' => (hd 0 v, tup n' (tl v)) end.
Fixpoint lst (n : nat) : Tn n R -> vec :=
  match n with O => fun _ => [] | S n' => fun t => fst t :: lst n' (snd t) end.
Lemma lst_length n t : List.length (lst n t) = n.
Proof. induction n as [|n IH]; cbn; [reflexivity|]. now rewrite IH. Qed.
Lemma lst_tup n : forall v, List.length v = n -> lst n (tup n v) = v.
Proof. induction n as [|n IH]; intros [|x v] H; cbn in *; try discriminate; [reflexivity|]. rewrite IH by lia. reflexivity. Qed.
Lemma near_close n : forall d x t, close_n n d x t -> near d (lst n x) (lst n t).
Proof.
  induction n as [|n IH]; intros d x t H; cbn; [constructor|]. destruct x as [x1 x2], t as [t1 t2]. destruct H as [H1 H2].
  constructor; [exact H1|now apply IH].
Qed.
Lemma bounded_box n : forall lo hi v, List.length lo = n -> List.length hi = n -> List.length v = n -> vle lo v -> vle v hi -> bounded_n n (tup n lo) (tup n hi) (tup n v).
Proof.
  induction n as [|n IH]; intros [|l lo] [|h hi] [|x v] H1 H2 H3 A B; cbn in *; try discriminate; [exact I|].
  inversion A; subst. inversion B; subst. split; [split; assumption|]. apply IH; auto.
Qed.
Lemma near_mono d d' x y : d <= d' -> near d x y -> near d' x y.
Proof. intros Hd H. induction H; constructor; [lra|assumption]. Qed.
Lemma near_sym d x y : near d x y -> near d y x.
Proof. intros H. induction H; constructor; [|assumption]. rewrite Rabs_minus_sym. assumption. Qed.

(** Uniformity on boxes. *)
Lemma box_uniform n lo hi (P : R -> vec -> Prop) : List.length lo = n -> List.length hi = n ->
  (forall d d' y, 0 < d' <= d -> P d y -> P d' y) ->
  (forall x, List.length x = n -> exists d, 0 < d /\ forall y, near d y x -> P d y) ->
  exists d, 0 < d /\ forall y, List.length y = n -> vle lo y -> vle y hi -> P d y.
Proof.
  intros Hlo Hhi Hm Hx.
  set (E := fun (x : vec) (d : R) => 0 <= d <= 1 /\ (0 < d -> forall y, near d y x -> P d y)).
  assert (EB : forall x, bound (E x)) by (intros x; exists 1; intros d [Hd _]; lra).
  assert (EN : forall x, exists d, E x d) by (intros x; exists 0; split; [lra|intros; lra]).
  set (D := fun x => proj1_sig (completeness (E x) (EB x) (EN x))).
  assert (DL : forall x, is_lub (E x) (D x)) by (intros x; unfold D; destruct (completeness _ _ _); assumption).
  assert (DP : forall x, List.length x = n -> 0 < D x).
  { intros x Hl. destruct (Hx x Hl) as (d & Hd & Hy). assert (E x (Rmin d 1)).
    { split; [split; [apply Rmin_glb; lra|apply Rmin_r]|]. intros Hp y Hn. apply (Hm d); [split; [exact Hp|apply Rmin_l]|]. apply Hy.
      eapply near_mono; [|exact Hn]. apply Rmin_l. }
    destruct (DL x) as [U _]. specialize (U _ H). assert (0 < Rmin d 1) by (apply Rmin_glb_lt; lra). lra. }
  assert (DE : forall x, List.length x = n -> forall y, near (D x / 2) y x -> P (D x / 2) y).
  { intros x Hl y Hn. pose proof (DP x Hl) as Hp. destruct (DL x) as [U V].
    destruct (classic (exists d, E x d /\ D x / 2 < d)) as [(d & [Hd Hd'] & Hlt)|Hno].
    - apply (Hm d); [lra|]. apply Hd'; [lra|]. eapply near_mono; [|exact Hn]. lra.
    - exfalso. assert (D x <= D x / 2); [|lra]. apply V. intros d Hd. destruct (Rle_or_lt d (D x / 2)); [assumption|]. exfalso. apply Hno. now exists d. }
  set (delta := fun t : Tn n R => mkposreal (D (lst n t) / 2) (Rlt_mult_inv_pos _ _ (DP _ (lst_length n t)) Rlt_0_2)).
  destruct (compactness_value n (tup n lo) (tup n hi) delta) as [d Hd]. exists d. split; [apply cond_pos|].
  intros y Hl A B. apply NNPP. intros Hc. apply (Hd (tup n y)); [now apply bounded_box|]. intros (t & _ & Ht & Hdt). apply Hc.
  apply near_close in Ht. rewrite lst_tup in Ht by exact Hl. apply (Hm (delta t)); [split; [apply cond_pos|exact Hdt]|].
  apply (DE (lst n t) (lst_length n t)). exact Ht.
Qed.

(** Continuous functions. *)
Definition cont (n : nat) (f : vec -> R) : Prop :=
  forall x, List.length x = n -> forall e, 0 < e -> exists d, 0 < d /\ forall y, near d y x -> Rabs (f y - f x) < e.
Lemma cont_const n k : cont n (fun _ => k).
Proof. intros x _ e He. exists 1. split; [lra|]. intros y _. rewrite Rminus_eq_0, Rabs_R0. exact He. Qed.
Lemma cont_plus n f g : cont n f -> cont n g -> cont n (fun v => f v + g v).
Proof.
  intros Hf Hg x Hx e He. destruct (Hf x Hx (e / 2)) as (d1 & P1 & H1); [lra|]. destruct (Hg x Hx (e / 2)) as (d2 & P2 & H2); [lra|].
  exists (Rmin d1 d2). split; [now apply Rmin_glb_lt|]. intros y Hy.
  specialize (H1 y (near_mono _ _ _ _ (Rmin_l d1 d2) Hy)). specialize (H2 y (near_mono _ _ _ _ (Rmin_r d1 d2) Hy)).
  replace (f y + g y - (f x + g x)) with ((f y - f x) + (g y - g x)) by ring. pose proof (Rabs_triang (f y - f x) (g y - g x)). lra.
Qed.
Lemma cont_mult n f g : cont n f -> cont n g -> cont n (fun v => f v * g v).
Proof.
  intros Hf Hg x Hx e He. set (K := Rabs (f x) + Rabs (g x) + 1). assert (HK : 1 <= K) by (unfold K; pose proof (Rabs_pos (f x)); pose proof (Rabs_pos (g x)); lra).
  set (u := Rmin 1 (e / (2 * K))). assert (Hu : 0 < u). { unfold u. apply Rmin_glb_lt; [lra|]. apply Rdiv_lt_0_compat; lra. }
  destruct (Hf x Hx u Hu) as (d1 & P1 & H1). destruct (Hg x Hx u Hu) as (d2 & P2 & H2).
  exists (Rmin d1 d2). split; [now apply Rmin_glb_lt|]. intros y Hy.
  specialize (H1 y (near_mono _ _ _ _ (Rmin_l d1 d2) Hy)). specialize (H2 y (near_mono _ _ _ _ (Rmin_r d1 d2) Hy)).
  replace (f y * g y - f x * g x) with ((f y - f x) * (g y - g x) + ((f y - f x) * g x + f x * (g y - g x))) by ring.
  eapply Rle_lt_trans; [apply Rabs_triang|]. eapply Rle_lt_trans; [apply Rplus_le_compat_l, Rabs_triang|]. rewrite !Rabs_mult.
  assert (U1 : u <= 1) by apply Rmin_l. assert (U2 : u * (2 * K) <= e).
  { unfold u. apply Rle_trans with (e / (2 * K) * (2 * K)); [apply Rmult_le_compat_r; [lra|apply Rmin_r]|]. right. field. lra. }
  set (a := Rabs (f y - f x)) in *. set (b := Rabs (g y - g x)) in *. assert (A0 : 0 <= a) by apply Rabs_pos. assert (B0 : 0 <= b) by apply Rabs_pos.
  set (p := Rabs (f x)) in *. set (q := Rabs (g x)) in *. assert (p0 : 0 <= p) by apply Rabs_pos. assert (q0 : 0 <= q) by apply Rabs_pos.
  assert (a * b <= u * 1) by (apply Rmult_le_compat; lra). assert (a * q <= u * q) by (apply Rmult_le_compat_r; lra). assert (p * b <= p * u) by (apply Rmult_le_compat_l; lra).
  unfold K in U2. assert (u * (2 * (p + q + 1)) = 2 * (u * 1 + u * q + p * u)) by ring. assert (0 <= u * q) by (apply Rmult_le_pos; lra). assert (0 <= p * u) by (apply Rmult_le_pos; lra). lra.
Qed.
Lemma cont_ext n f g : (forall v, f v = g v) -> cont n f -> cont n g.
Proof. intros E H x Hx e He. destruct (H x Hx e He) as (d & P & Q). exists d. split; [exact P|]. intros y Hy. rewrite <- !E. now apply Q. Qed.
Lemma cont_nth n k : cont n (fun v => nth k v 0).
Proof.
  intros x _ e He. exists e. split; [exact He|]. intros y Hy. revert k. induction Hy as [|a b y x Hab Hy IH]; intros [|k]; cbn; try assumption; try apply IH; now rewrite Rminus_eq_0, Rabs_R0.
Qed.
Lemma dot_skip k v a l : dot (skipn k v) (a :: l) = nth k v 0 * a + dot (skipn (S k) v) l.
Proof.
  revert v. induction k as [|k IH]; intros [|x v].
  - cbn [skipn nth]. rewrite !dot_nil_l. ring.
  - cbn [skipn nth]. apply dot_cons.
  - cbn [skipn nth]. rewrite !dot_nil_l. ring.
  - cbn [nth]. change (skipn (S k) (x :: v)) with (skipn k v). rewrite IH. reflexivity.
Qed.
Lemma cont_dot_skip n (fs : list (vec -> R)) : Forall (cont n) fs -> forall k, cont n (fun v => dot (skipn k v) (map (fun f => f v) fs)).
Proof.
  intros H. induction H as [|f fs Hf H IH]; intros k.
  - apply (cont_ext n (fun _ => 0)); [|apply cont_const]. intros v. cbn. now rewrite dot_nil_r.
  - apply (cont_ext n (fun v => nth k v 0 * f v + dot (skipn (S k) v) (map (fun f => f v) fs))); [intros v; cbn [map]; now rewrite dot_skip|].
    apply cont_plus; [apply cont_mult; [apply cont_nth|exact Hf]|apply IH].
Qed.
Lemma cont_dot n r : cont n (fun v => dot r v).
Proof.
  apply (cont_ext n (fun v => dot (skipn 0 v) (map (fun f => f v) (map (fun k => fun _ : vec => k) r)))).
  - intros v. rewrite map_map, map_id. cbn [skipn]. apply dot_comm.
  - apply cont_dot_skip. rewrite Forall_map. apply Forall_forall. intros k _. apply cont_const.
Qed.
Lemma cont_quad n P : cont n (fun v => dot v (mv P v)).
Proof.
  apply (cont_ext n (fun v => dot (skipn 0 v) (map (fun f => f v) (map (fun r => fun v => dot r v) P)))).
  - intros v. now rewrite map_map.
  - apply cont_dot_skip. rewrite Forall_map. apply Forall_forall. intros r _. apply cont_dot.
Qed.

(** Minimum on a box with finitely many closed conditions [g v <= 0]. *)
Lemma min_exists n lo hi (gs : list (vec -> R)) (f : vec -> R) : List.length lo = n -> List.length hi = n -> Forall (cont n) gs -> cont n f ->
  let S := fun v => List.length v = n /\ vle lo v /\ vle v hi /\ Forall (fun g => g v <= 0) gs in
  (exists v, S v) -> exists v, S v /\ forall w, S w -> f v <= f w.
Proof.
  intros Hlo Hhi Hg Hf S [v0 H0].
  assert (Hclosed : forall x, List.length x = n -> ~ Forall (fun g => g x <= 0) gs -> exists d, 0 < d /\ forall y, near d y x -> ~ S y).
  { intros x Hx Hn. assert (exists g, In g gs /\ 0 < g x) as (g & Hi & Hp).
    { apply NNPP. intros Hc. apply Hn. apply Forall_forall. intros g Hi. destruct (Rle_or_lt (g x) 0); [assumption|]. exfalso. apply Hc. now exists g. }
    rewrite Forall_forall in Hg. destruct (Hg g Hi x Hx (g x) Hp) as (d & Pd & Hd). exists d. split; [exact Pd|]. intros y Hy (_ & _ & _ & Hs).
    rewrite Forall_forall in Hs. specialize (Hs g Hi). specialize (Hd y Hy). apply Rabs_def2 in Hd. lra. }
  assert (B : exists d, 0 < d /\ forall y, List.length y = n -> vle lo y -> vle y hi -> S y -> - / d <= f y).
  { apply (box_uniform n lo hi (fun d y => S y -> - / d <= f y) Hlo Hhi).
    - intros d d' y Hd H Hs. specialize (H Hs). assert (/ d <= / d') by (apply Rinv_le_contravar; lra). lra.
    - intros x Hx. destruct (Hf x Hx 1 Rlt_0_1) as (d & Pd & Hd). set (k := Rabs (f x) + 1). assert (Hk : 0 < k) by (unfold k; pose proof (Rabs_pos (f x)); lra).
      exists (Rmin d (/ k)). assert (Hr : 0 < Rmin d (/ k)) by (apply Rmin_glb_lt; [exact Pd|now apply Rinv_0_lt_compat]). split; [exact Hr|]. intros y Hy _.
      specialize (Hd y (near_mono _ _ _ _ (Rmin_l _ _) Hy)). apply Rabs_def2 in Hd. assert (k <= / Rmin d (/ k)).
      { rewrite <- (Rinv_inv k) at 1. apply Rinv_le_contravar; [exact Hr|apply Rmin_r]. }
      assert (- Rabs (f x) <= f x) by (pose proof (Rle_abs (- f x)); rewrite Rabs_Ropp in *; lra). unfold k in *. lra. }
  destruct B as (db & Pb & Hb).
  set (I := fun z => exists v, S v /\ z = - f v).
  assert (IB : bound I). { exists (/ db). intros z (v & Hv & ->). pose proof Hv as (L1 & L2 & L3 & _). specialize (Hb v L1 L2 L3 Hv). lra. }
  assert (IN : exists z, I z) by (exists (- f v0); now exists v0).
  destruct (completeness I IB IN) as [M [U V]]. apply NNPP. intros Hno.
  assert (Hgt : forall v, S v -> - M < f v).
  { intros v Hv. assert (- f v <= M) by (apply U; now exists v). destruct (Req_dec (f v) (- M)) as [E|]; [|lra]. exfalso. apply Hno. exists v. split; [exact Hv|].
    intros w Hw. assert (- f w <= M) by (apply U; now exists w). lra. }
  assert (C : exists d, 0 < d /\ forall y, List.length y = n -> vle lo y -> vle y hi -> S y -> - M + d <= f y).
  { apply (box_uniform n lo hi (fun d y => S y -> - M + d <= f y) Hlo Hhi).
    - intros d d' y Hd H Hs. specialize (H Hs). lra.
    - intros x Hx. destruct (classic (Forall (fun g => g x <= 0) gs)) as [Hin|Hout].
      + destruct (classic (- M < f x)) as [Hp|Hq].
        * destruct (Hf x Hx ((f x + M) / 2)) as (d & Pd & Hd); [lra|]. exists (Rmin d ((f x + M) / 2)).
          split; [apply Rmin_glb_lt; lra|]. intros y Hy _. specialize (Hd y (near_mono _ _ _ _ (Rmin_l _ _) Hy)). apply Rabs_def2 in Hd.
          pose proof (Rmin_r d ((f x + M) / 2)). lra.
        * assert (Hnb : ~ (vle lo x /\ vle x hi)). { intros [A1 A2]. apply Hq. apply Hgt. now repeat split. }
          assert (Hb' : exists d, 0 < d /\ forall y, near d y x -> ~ S y).
          { assert (exists k, (k < n)%nat /\ (nth k x 0 < nth k lo 0 \/ nth k hi 0 < nth k x 0)) as (k & Hk & Hc).
            { apply NNPP. intros Hc. apply Hnb. assert (forall k, (k < n)%nat -> nth k lo 0 <= nth k x 0 <= nth k hi 0).
              { intros k Hk. split; apply Rnot_lt_le; intros Hl; apply Hc; exists k; auto. }
              clear - H Hlo Hhi Hx. revert lo hi n Hlo Hhi Hx H. induction x as [|x0 x IH]; intros [|l lo] [|h hi] n H1 H2 H3 H; cbn in *; subst; try discriminate; [split; constructor|].
              pose proof (H 0%nat ltac:(lia)) as H0. cbn in H0. destruct (IH lo hi (List.length x)) as [A B]; [lia|lia|reflexivity| |split; constructor; [lra|exact A|lra|exact B]].
              intros k Hk. apply (H (Datatypes.S k)). lia. }
            destruct Hc as [Hc|Hc].
            - destruct (cont_nth n k x Hx (nth k lo 0 - nth k x 0)) as (d & Pd & Hd); [lra|]. exists d. split; [exact Pd|]. intros y Hy (_ & L2 & _).
              assert (nth k lo 0 <= nth k y 0) by (clear - L2; revert k; induction L2; intros [|k]; cbn; try lra; auto).
              specialize (Hd y Hy). cbn beta in Hd. apply Rabs_def2 in Hd. lra.
            - destruct (cont_nth n k x Hx (nth k x 0 - nth k hi 0)) as (d & Pd & Hd); [lra|]. exists d. split; [exact Pd|]. intros y Hy (_ & _ & L3 & _).
              assert (nth k y 0 <= nth k hi 0) by (clear - L3; revert k; induction L3; intros [|k]; cbn; try lra; auto).
              specialize (Hd y Hy). cbn beta in Hd. apply Rabs_def2 in Hd. lra. }
          destruct Hb' as (d & Pd & Hd). exists d. split; [exact Pd|]. intros y Hy Hs. now elim (Hd y Hy).
      + destruct (Hclosed x Hx Hout) as (d & Pd & Hd). exists d. split; [exact Pd|]. intros y Hy Hs. now elim (Hd y Hy). }
  destruct C as (d & Pd & Hd). assert (M <= M - d); [|lra]. apply V. intros z (v & Hv & ->). pose proof Hv as (L1 & L2 & L3 & _). specialize (Hd v L1 L2 L3 Hv). lra.
Qed.
