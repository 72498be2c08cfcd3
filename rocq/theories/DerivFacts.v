(** Rules for gradients of functions of several variables. *)
From Coq Require Import Lia.
From Verif Require Import Base Lin Mjx SpecConf SpecDeriv LinFacts.
Open Scope R_scope.

Lemma size_nonneg h : 0 <= size h.
Proof. unfold size. induction h as [|a h IH]; cbn; [lra|]. pose proof (Rabs_pos a). lra. Qed.
Lemma size_cons a h : size (a :: h) = Rabs a + size h. Proof. reflexivity. Qed.
Lemma size_add a b : List.length a = List.length b -> size (vadd a b) <= size a + size b.
Proof.
  revert b. induction a as [|x a IH]; intros [|y b] H; try discriminate; [unfold size; cbn; lra|]. injection H as H. change (vadd (x :: a) (y :: b)) with (x + y :: vadd a b).
  rewrite !size_cons. pose proof (Rabs_triang x y). specialize (IH b H). lra.
Qed.
Lemma size_scale k a : size (vscale k a) = Rabs k * size a.
Proof. induction a as [|x a IH]; [unfold size; cbn; ring|]. change (vscale k (x :: a)) with (k * x :: vscale k a). rewrite !size_cons, IH, Rabs_mult. ring. Qed.
Lemma dot_size g h : Rabs (dot g h) <= size g * size h.
Proof.
  revert h. induction g as [|a g IH]; intros [|b h].
  - cbn. rewrite Rabs_R0. unfold size. cbn. lra.
  - rewrite dot_nil_l, Rabs_R0. apply Rmult_le_pos; apply size_nonneg.
  - rewrite dot_nil_r, Rabs_R0. apply Rmult_le_pos; apply size_nonneg.
  - rewrite dot_cons, !size_cons. eapply Rle_trans; [apply Rabs_triang|]. rewrite Rabs_mult. specialize (IH h).
    pose proof (Rabs_pos a). pose proof (Rabs_pos b). pose proof (size_nonneg g). pose proof (size_nonneg h). nra.
Qed.
Lemma size_self x : size (vsub x x) = 0.
Proof. induction x as [|a x IH]; [reflexivity|]. change (vsub (a :: x) (a :: x)) with (a - a :: vsub x x). rewrite size_cons, IH, Rminus_diag_eq, Rabs_R0 by reflexivity. ring. Qed.

Lemma grad_const c x : has_gradient (fun _ => c) x (vzero (List.length x)).
Proof. intros eps He. exists 1. split; [lra|]. intros y Hy _. rewrite dot_vzero_l. replace (c - c - 0) with 0 by ring. rewrite Rabs_R0. apply Rmult_le_pos; [lra|apply size_nonneg]. Qed.
Lemma nth_vsub n a b : List.length a = List.length b -> nth n (vsub a b) 0 = nth n a 0 - nth n b 0.
Proof. revert n b. induction a as [|x a IH]; intros [|n] [|y b] H; try discriminate; cbn; try lra. apply IH. cbn in H. lia. Qed.
Lemma grad_coord i x : (i < List.length x)%nat -> has_gradient (fun y => nth i y 0) x (unit_row (List.length x) i).
Proof.
  intros Hi eps He. exists 1. split; [lra|]. intros y Hy _. rewrite dot_unit_row, nth_vsub by (try exact Hi; try exact Hy; now rewrite vsub_length).
  rewrite Rminus_diag_eq, Rabs_R0 by reflexivity. apply Rmult_le_pos; [lra|apply size_nonneg].
Qed.
Lemma grad_add F G x g h : List.length g = List.length h -> has_gradient F x g -> has_gradient G x h -> has_gradient (fun y => F y + G y) x (vadd g h).
Proof.
  intros Hl HF HG eps He. destruct (HF (eps / 2)) as (d1 & P1 & H1); [lra|]. destruct (HG (eps / 2)) as (d2 & P2 & H2); [lra|].
  exists (Rmin d1 d2). split; [now apply Rmin_glb_lt|]. intros y Hy Hs. specialize (H1 y Hy (Rlt_le_trans _ _ _ Hs (Rmin_l _ _))). specialize (H2 y Hy (Rlt_le_trans _ _ _ Hs (Rmin_r _ _))).
  rewrite dot_vadd_l by exact Hl.
  replace (F y + G y - (F x + G x) - (dot g (vsub y x) + dot h (vsub y x))) with ((F y - F x - dot g (vsub y x)) + (G y - G x - dot h (vsub y x))) by ring.
  eapply Rle_trans; [apply Rabs_triang|]. lra.
Qed.
Lemma grad_near F x g : has_gradient F x g -> forall eps, 0 < eps -> exists del, 0 < del /\ forall y, List.length y = List.length x -> size (vsub y x) < del ->
  Rabs (F y - F x) <= (size g + 1) * size (vsub y x) /\ Rabs (F y - F x) < eps.
Proof.
  intros HF eps He. destruct (HF 1) as (d & P & H); [lra|]. assert (K : 0 < size g + 1) by (pose proof (size_nonneg g); lra).
  exists (Rmin d (eps / (size g + 1))). split; [apply Rmin_glb_lt; [exact P|apply Rdiv_lt_0_compat; lra]|].
  intros y Hy Hs. specialize (H y Hy (Rlt_le_trans _ _ _ Hs (Rmin_l _ _))). pose proof (Rlt_le_trans _ _ _ Hs (Rmin_r _ _)) as Hs2.
  assert (A : Rabs (F y - F x) <= (size g + 1) * size (vsub y x)).
  { replace (F y - F x) with ((F y - F x - dot g (vsub y x)) + dot g (vsub y x)) by ring. eapply Rle_trans; [apply Rabs_triang|]. pose proof (dot_size g (vsub y x)). lra. }
  split; [exact A|]. eapply Rle_lt_trans; [exact A|]. apply Rmult_lt_compat_l with (r := size g + 1) in Hs2; [|exact K]. replace ((size g + 1) * (eps / (size g + 1))) with eps in Hs2 by (field; lra). exact Hs2.
Qed.
(** Composition with a differentiable function of one variable. *)
Lemma grad_comp (phi : R -> R) l F x g : has_gradient F x g -> derivable_pt_lim phi (F x) l -> has_gradient (fun y => phi (F y)) x (vscale l g).
Proof.
  intros HF HP eps He. pose proof (size_nonneg g) as Sg. pose proof (Rabs_pos l) as Al.
  set (e1 := eps / (2 * (size g + 1))). assert (E1 : 0 < e1) by (apply Rdiv_lt_0_compat; lra).
  set (e2 := eps / (2 * (Rabs l + 1))). assert (E2 : 0 < e2) by (apply Rdiv_lt_0_compat; lra).
  destruct (HP e1 E1) as (d1 & H1). destruct (HF e2 E2) as (d2 & P2 & H2). destruct (grad_near F x g HF d1 (cond_pos d1)) as (d3 & P3 & H3).
  exists (Rmin d2 d3). split; [now apply Rmin_glb_lt|]. intros y Hy Hs.
  specialize (H2 y Hy (Rlt_le_trans _ _ _ Hs (Rmin_l _ _))). destruct (H3 y Hy (Rlt_le_trans _ _ _ Hs (Rmin_r _ _))) as [Hb Hd].
  rewrite dot_vscale_l. set (s := size (vsub y x)) in *. set (D := dot g (vsub y x)) in *. set (u := F y - F x) in *. pose proof (size_nonneg (vsub y x)) as Ss. fold s in Ss.
  assert (B : Rabs (phi (F y) - phi (F x) - l * u) <= e1 * Rabs u).
  { destruct (Req_dec u 0) as [U|U].
    - rewrite U, Rabs_R0. replace (F y) with (F x) by (unfold u in U; lra). replace (phi (F x) - phi (F x) - l * 0) with 0 by ring. rewrite Rabs_R0. lra.
    - specialize (H1 u U Hd). replace (F x + u) with (F y) in H1 by (unfold u; ring). apply Rlt_le in H1. apply Rmult_le_compat_r with (r := Rabs u) in H1; [|apply Rabs_pos].
      rewrite <- Rabs_mult in H1. replace (((phi (F y) - phi (F x)) / u - l) * u) with (phi (F y) - phi (F x) - l * u) in H1 by (field; exact U). exact H1. }
  replace (phi (F y) - phi (F x) - l * D) with ((phi (F y) - phi (F x) - l * u) + l * (u - D)) by ring.
  eapply Rle_trans; [apply Rabs_triang|]. rewrite Rabs_mult.
  assert (C1 : e1 * Rabs u <= eps / 2 * s). { apply Rle_trans with (e1 * ((size g + 1) * s)); [apply Rmult_le_compat_l; lra|]. unfold e1. right. field. lra. }
  assert (C2 : Rabs l * Rabs (u - D) <= eps / 2 * s).
  { apply Rle_trans with ((Rabs l + 1) * (e2 * s)); [|unfold e2; right; field; lra]. apply Rmult_le_compat; [exact Al|apply Rabs_pos|lra|exact H2]. }
  lra.
Qed.
Lemma grad_scale k F x g : has_gradient F x g -> has_gradient (fun y => k * F y) x (vscale k g).
Proof. intros H. apply (grad_comp (fun u => k * u) k F x g H). pose proof (derivable_pt_lim_scal id k (F x) 1 (derivable_pt_lim_id _)) as K. rewrite Rmult_1_r in K. exact K. Qed.
Lemma grad_ext F G x g : has_gradient F x g -> (forall y, List.length y = List.length x -> F y = G y) -> has_gradient G x g.
Proof. intros H E eps He. destruct (H eps He) as (d & P & K). exists d. split; [exact P|]. intros y Hy Hs. rewrite <- !E by (reflexivity || exact Hy). now apply K. Qed.
Lemma grad_local F G x g r : 0 < r -> has_gradient F x g -> (forall y, List.length y = List.length x -> size (vsub y x) < r -> F y = G y) -> has_gradient G x g.
Proof.
  intros Hr H E eps He. destruct (H eps He) as (d & P & K). exists (Rmin d r). split; [now apply Rmin_glb_lt|]. intros y Hy Hs.
  assert (A : size (vsub y x) < d) by (eapply Rlt_le_trans; [exact Hs|apply Rmin_l]). assert (B : size (vsub y x) < r) by (eapply Rlt_le_trans; [exact Hs|apply Rmin_r]).
  rewrite <- (E y Hy B), <- (E x eq_refl); [now apply K|]. rewrite size_self. exact Hr.
Qed.
Lemma grad_eq F x g g' : g = g' -> has_gradient F x g -> has_gradient F x g'. Proof. now intros ->. Qed.
Lemma square_lim a : derivable_pt_lim (fun u => u * u) a (2 * a).
Proof. replace (2 * a) with (1 * a + a * 1) by ring. apply (derivable_pt_lim_mult (fun u => u) (fun u => u)); apply derivable_pt_lim_id. Qed.
Lemma vscale_vadd k a b : vscale k (vadd a b) = vadd (vscale k a) (vscale k b).
Proof. revert b. induction a as [|x a IH]; intros [|y b]; try reflexivity. cbn. f_equal; [ring|]. apply IH. Qed.
Lemma grad_mul F G x g h : List.length g = List.length h -> has_gradient F x g -> has_gradient G x h -> has_gradient (fun y => F y * G y) x (vadd (vscale (G x) g) (vscale (F x) h)).
Proof.
  intros Hl HF HG. assert (P : has_gradient (fun y => (F y + G y) * (F y + G y)) x (vscale (2 * (F x + G x)) (vadd g h))).
  { apply (grad_comp (fun u => u * u) _ (fun y => F y + G y)); [now apply grad_add|apply square_lim]. }
  assert (N : has_gradient (fun y => -1 * G y) x (vscale (-1) h)) by now apply grad_scale.
  assert (Q : has_gradient (fun y => (F y + -1 * G y) * (F y + -1 * G y)) x (vscale (2 * (F x + -1 * G x)) (vadd g (vscale (-1) h)))).
  { apply (grad_comp (fun u => u * u) _ (fun y => F y + -1 * G y)); [apply grad_add; [now rewrite vscale_length|exact HF|exact N]|apply square_lim]. }
  apply (grad_scale (1 / 4)) in P. apply (grad_scale (- (1 / 4))) in Q.
  assert (LL : List.length (vscale (1 / 4) (vscale (2 * (F x + G x)) (vadd g h))) = List.length (vscale (- (1 / 4)) (vscale (2 * (F x + -1 * G x)) (vadd g (vscale (-1) h))))).
  { rewrite !vscale_length, !vadd_length; rewrite ?vscale_length; auto. }
  pose proof (grad_add _ _ _ _ _ LL P Q) as T. eapply grad_eq; [|eapply grad_ext; [exact T|]]; [|intros y _; cbv beta; field].
  clear - Hl. revert h Hl. induction g as [|a g IH]; intros [|b h] Hl; try discriminate; [reflexivity|]. injection Hl as Hl. cbn. f_equal; [field|]. apply IH. exact Hl.
Qed.
Lemma grad_opp F x g : has_gradient F x g -> has_gradient (fun y => - F y) x (vneg g).
Proof. intros H. rewrite vneg_vscale. eapply grad_ext; [apply (grad_scale (-1)); exact H|]. intros y _. cbv beta. ring. Qed.
Lemma grad_sub F G x g h : List.length g = List.length h -> has_gradient F x g -> has_gradient G x h -> has_gradient (fun y => F y - G y) x (vsub g h).
Proof.
  intros Hl HF HG. replace (vsub g h) with (vadd g (vneg h)).
  - eapply grad_ext; [apply (grad_add F (fun y => - G y)); [now rewrite vneg_length|exact HF|now apply grad_opp]|]. intros y _. cbv beta. ring.
  - clear - Hl. revert h Hl. induction g as [|a g IH]; intros [|b h] Hl; try discriminate; [reflexivity|]. injection Hl as Hl. cbn. f_equal. apply IH. exact Hl.
Qed.
Lemma grad_inv F x g : F x <> 0 -> has_gradient F x g -> has_gradient (fun y => / F y) x (vscale (- / (F x * F x)) g).
Proof.
  intros Hn HF. apply grad_ext with (F := fun y => 1 / F y); [|intros y _; unfold Rdiv; ring]. apply (grad_comp (fun u => 1 / u)); [exact HF|].
  pose proof (derivable_pt_lim_div (fct_cte 1) id (F x) 0 1 (derivable_pt_lim_const _ _) (derivable_pt_lim_id _) Hn) as K.
  replace ((0 * id (F x) - 1 * fct_cte 1 (F x)) / (id (F x))²) with (- / (F x * F x)) in K by (unfold id, fct_cte, Rsqr; field; exact Hn). exact K.
Qed.

(** ** Along a curve *)
Lemma curve_close (n : nat) : forall (c : R -> vec) x r, List.length x = n -> List.length r = n -> (forall t, List.length (c t) = n) -> c 0 = x ->
  (forall i, (i < n)%nat -> derivable_pt_lim (fun t => nth i (c t) 0) 0 (nth i r 0)) ->
  forall eps, 0 < eps -> exists del, 0 < del /\ forall t, Rabs t < del -> size (vsub (vsub (c t) x) (vscale t r)) <= eps * Rabs t.
Proof.
  induction n as [|n IH]; intros c x r Hx Hr Hc H0 Hd eps He.
  - exists 1. split; [lra|]. intros t _. specialize (Hc t). destruct (c t); [|discriminate]. destruct x; [|discriminate]. destruct r; [|discriminate]. unfold size. cbn. pose proof (Rabs_pos t). nra.
  - destruct x as [|x0 x]; [discriminate|]. destruct r as [|r0 r]; [discriminate|]. injection Hx as Hx. injection Hr as Hr.
    destruct (IH (fun t => tl (c t)) x r Hx Hr) with (eps := eps / 2) as (d1 & P1 & H1); [| | |lra|].
    + intros t. specialize (Hc t). destruct (c t); [discriminate|]. injection Hc as Hc. exact Hc.
    + rewrite H0. reflexivity.
    + intros i Hi. assert (Si : (S i < S n)%nat) by lia. specialize (Hd (S i) Si). cbn [nth] in Hd. intros e Hee. destruct (Hd e Hee) as (dd & K). exists dd. intros h Hh Hh2. specialize (K h Hh Hh2).
      assert (T : forall t, nth i (tl (c t)) 0 = nth (S i) (c t) 0) by (intros t; specialize (Hc t); destruct (c t); [discriminate|reflexivity]). rewrite !T. exact K.
    + assert (S0 : (0 < S n)%nat) by lia. specialize (Hd 0%nat S0). cbn [nth] in Hd. destruct (Hd (eps / 2)) as (d2 & H2); [lra|].
      exists (Rmin d1 d2). split; [apply Rmin_glb_lt; [exact P1|apply cond_pos]|]. intros t Ht.
      specialize (H1 t (Rlt_le_trans _ _ _ Ht (Rmin_l _ _))). pose proof (Rlt_le_trans _ _ _ Ht (Rmin_r _ _)) as Ht2.
      assert (E0 : nth 0 (c 0) 0 = x0) by (rewrite H0; reflexivity).
      assert (B : Rabs (nth 0 (c t) 0 - x0 - t * r0) <= eps / 2 * Rabs t).
      { destruct (Req_dec t 0) as [->|T]; [rewrite E0, Rabs_R0; replace (x0 - x0 - 0 * r0) with 0 by ring; rewrite Rabs_R0; lra|].
        specialize (H2 t T Ht2). rewrite Rplus_0_l, E0 in H2. apply Rlt_le in H2. apply Rmult_le_compat_r with (r := Rabs t) in H2; [|apply Rabs_pos]. rewrite <- Rabs_mult in H2.
        replace (((nth 0 (c t) 0 - x0) / t - r0) * t) with (nth 0 (c t) 0 - x0 - t * r0) in H2 by (field; exact T). exact H2. }
      specialize (Hc t). destruct (c t) as [|c0 ct]; [discriminate|]. cbn [nth tl] in *.
      change (vsub (vsub (c0 :: ct) (x0 :: x)) (vscale t (r0 :: r))) with (c0 - x0 - t * r0 :: vsub (vsub ct x) (vscale t r)). rewrite size_cons. lra.
Qed.
Lemma vsub_vadd a b : List.length a = List.length b -> vadd (vsub a b) b = a.
Proof. revert b. induction a as [|x a IH]; intros [|y b] H; try discriminate; [reflexivity|]. injection H as H. cbn. f_equal; [ring|]. now apply IH. Qed.
Lemma grad_curve F x g (c : R -> vec) r : has_gradient F x g -> List.length r = List.length x -> (forall t, List.length (c t) = List.length x) -> c 0 = x ->
  (forall i, (i < List.length x)%nat -> derivable_pt_lim (fun t => nth i (c t) 0) 0 (nth i r 0)) -> derivable_pt_lim (fun t => F (c t)) 0 (dot g r).
Proof.
  intros HF Hr Hc H0 Hd eps He. pose proof (size_nonneg g) as Sg. pose proof (size_nonneg r) as Sr.
  set (e1 := eps / (4 * (size r + 1))). assert (E1 : 0 < e1) by (apply Rdiv_lt_0_compat; lra).
  set (e2 := Rmin 1 (eps / (4 * (size g + 1)))). assert (E2 : 0 < e2) by (apply Rmin_glb_lt; [lra|apply Rdiv_lt_0_compat; lra]).
  destruct (HF e1 E1) as (d1 & P1 & H1). destruct (curve_close _ c x r eq_refl Hr Hc H0 Hd e2 E2) as (d2 & P2 & H2).
  assert (PD : 0 < Rmin d2 (d1 / (size r + 1))) by (apply Rmin_glb_lt; [exact P2|apply Rdiv_lt_0_compat; lra]).
  exists (mkposreal _ PD). cbn [pos]. intros h Hh Hs. rewrite Rplus_0_l, H0.
  specialize (H2 h (Rlt_le_trans _ _ _ Hs (Rmin_l _ _))). pose proof (Rlt_le_trans _ _ _ Hs (Rmin_r _ _)) as Hs2.
  set (y := c h) in *. assert (Ly : List.length y = List.length x) by apply Hc. assert (Lyx : List.length (vsub y x) = List.length x) by now rewrite vsub_length.
  assert (Lhr : List.length (vscale h r) = List.length x) by now rewrite vscale_length.
  pose proof (Rabs_pos_lt h Hh) as Ph.
  assert (Sy : size (vsub y x) <= (size r + 1) * Rabs h).
  { rewrite <- (vsub_vadd (vsub y x) (vscale h r)) by congruence. eapply Rle_trans; [apply size_add; rewrite vsub_length; congruence|]. rewrite size_scale.
    assert (e2 * Rabs h <= 1 * Rabs h) by (apply Rmult_le_compat_r; [lra|apply Rmin_l]). lra. }
  assert (Sd : size (vsub y x) < d1).
  { eapply Rle_lt_trans; [exact Sy|]. apply Rmult_lt_compat_l with (r := size r + 1) in Hs2; [|lra]. replace ((size r + 1) * (d1 / (size r + 1))) with d1 in Hs2 by (field; lra). exact Hs2. }
  specialize (H1 y Ly Sd).
  assert (Dd : Rabs (dot g (vsub y x) - h * dot g r) <= size g * (e2 * Rabs h)).
  { rewrite <- dot_vscale_r, <- dot_vsub_r by congruence. eapply Rle_trans; [apply dot_size|]. apply Rmult_le_compat_l; [exact Sg|exact H2]. }
  apply Rmult_lt_reg_r with (Rabs h); [exact Ph|]. rewrite <- Rabs_mult. replace (((F y - F x) / h - dot g r) * h) with ((F y - F x - dot g (vsub y x)) + (dot g (vsub y x) - h * dot g r)) by (field; exact Hh).
  eapply Rle_lt_trans; [apply Rabs_triang|].
  assert (A1 : e1 * size (vsub y x) <= eps / 4 * Rabs h). { apply Rle_trans with (e1 * ((size r + 1) * Rabs h)); [apply Rmult_le_compat_l; lra|]. unfold e1. right. field. lra. }
  assert (A2 : size g * (e2 * Rabs h) <= eps / 4 * Rabs h).
  { apply Rle_trans with ((size g + 1) * (eps / (4 * (size g + 1)) * Rabs h)); [|right; field; lra]. apply Rmult_le_compat; [exact Sg|apply Rmult_le_pos; lra|lra|]. apply Rmult_le_compat_r; [lra|apply Rmin_r]. }
  nra.
Qed.
