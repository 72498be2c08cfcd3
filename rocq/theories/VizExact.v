(** Exact forms of C69 and C72. *)
From Coq Require Import Ascii.
From Verif Require Import Base Lin Rot Problem JaxTree JaxTreeFacts Visualize SpecViz VizFacts VizFacts2 VizFacts3 VizThms.
Open Scope nat_scope.

(** ** C69: the k-th colour is the one asked for the k-th marker from the end. *)
Lemma blend_swap c cb ce : blend c cb ce = blend (1 - c) ce cb.
Proof. unfold blend. revert ce. induction cb as [|x cb IH]; intros [|y ce]; [reflexivity..|]. cbn. f_equal; [ring|apply IH]. Qed.
Lemma coef_reverse n k : (2 <= n)%Z -> k < Z.to_nat n -> (1 - coef n k)%R = coef n (Z.to_nat n - 1 - k).
Proof.
  intros Hn Hk. unfold coef. destruct (Z.eqb_spec n 1); [lia|]. rewrite !INR_IZR_INZ. replace (Z.of_nat (Z.to_nat n - 1 - k)) with (n - 1 - Z.of_nat k)%Z by lia.
  assert (N : IZR (n - 1) <> 0%R) by (apply not_0_IZR; lia). rewrite (minus_IZR (n - 1) (Z.of_nat k)). field. exact N.
Qed.
Lemma colour_exact ga os1 os2 nm sz a cb e ty n nq q0 vs rs f :
  fresh ga (os1 ++ VAdd nm sz a cb (Some e) ty n :: os2) (new_viz nq q0 vs rs f) ->
  fst (vstep ga (VAdd nm sz a cb (Some e) ty n) (vrun ga os1 (new_viz nq q0 vs rs f))) = Ok tt ->
  forall k nk, nth_error (names_used nm n) k = Some nk -> List.length cb = List.length e -> (2 <= n)%Z ->
  exists m, assoc nk (z_markers (vrun ga (os1 ++ VAdd nm sz a cb (Some e) ty n :: os2) (new_viz nq q0 vs rs f))) = Some m /\
    mk_rgba m = blend (INR (Z.to_nat n - 1 - k) / INR (Z.to_nat n - 1)) e cb ++ [a].
Proof.
  intros Hf Hok k nk H Hl Hn. destruct (accepted_n ga os1 nm sz a cb (Some e) ty n nq q0 vs rs f Hok) as [_ Hk]. specialize (Hk k nk H).
  destruct (marker_colour ga os1 os2 nm sz a cb (Some e) ty n nq q0 vs rs f Hf Hok k nk e H eq_refl Hl) as (m & A & B). exists m. split; [exact A|]. rewrite B. f_equal. rewrite blend_swap, coef_reverse by assumption.
  unfold coef. destruct (Z.eqb_spec n 1); [lia|]. f_equal. f_equal. rewrite (INR_IZR_INZ (Z.to_nat n - 1)). f_equal. lia.
Qed.
Lemma order_right_iff ga os1 os2 nm sz a cb e ty n nq q0 vs rs f :
  fresh ga (os1 ++ VAdd nm sz a cb (Some e) ty n :: os2) (new_viz nq q0 vs rs f) ->
  fst (vstep ga (VAdd nm sz a cb (Some e) ty n) (vrun ga os1 (new_viz nq q0 vs rs f))) = Ok tt ->
  forall nf nl, List.length cb = List.length e -> (2 <= n)%Z -> nth_error (names_used nm n) 0 = Some nf -> nth_error (names_used nm n) (Z.to_nat n - 1) = Some nl ->
  let z := vrun ga (os1 ++ VAdd nm sz a cb (Some e) ty n :: os2) (new_viz nq q0 vs rs f) in
  ((exists mf ml, assoc nf (z_markers z) = Some mf /\ mk_rgba mf = cb ++ [a] /\ assoc nl (z_markers z) = Some ml /\ mk_rgba ml = e ++ [a]) <-> cb = e).
Proof.
  intros Hf Hok nf nl Hl Hn H0 H1. cbv zeta. destruct (colour_ends ga os1 os2 nm sz a cb (Some e) ty n nq q0 vs rs f Hf Hok e nf nl eq_refl Hl Hn H0 H1) as (mf & ml & F1 & F2 & L1 & L2). split.
  - intros (mf' & ml' & F1' & F2' & _). rewrite F1 in F1'. injection F1' as <-. rewrite F2 in F2'. symmetry. exact (proj1 (app_inj_tail _ _ _ _ F2')).
  - intros ->. exists mf, ml. auto.
Qed.

(** ** C72 *)
Lemma borrower_in gg ks k gs g : In g gs -> visible gg ks g -> g_rgba g = None -> g_class g = Some k -> 1 <= List.length (borrowers gg ks k gs).
Proof.
  intros Hg Hv Hr Hk. assert (I : In g (borrowers gg ks k gs)).
  { apply filter_In. split; [exact Hg|]. rewrite Hr, Hk, Nat.eqb_refl. unfold visible in Hv. destruct (geom_group_of ks g); [|reflexivity]. apply Z.eqb_eq. now apply Hv. }
  destruct (borrowers gg ks k gs); [contradiction|cbn; lia].
Qed.
Lemma power_once a al n : (0 <= al)%R -> 1 <= n -> ((a * al ^ n = a * al)%R <-> n = 1 \/ al = 1%R \/ al = 0%R \/ a = 0%R).
Proof.
  intros Ha Hn. split.
  - intros H. destruct (Req_dec a 0) as [|Na]; [auto|]. apply Rmult_eq_reg_l in H; [|exact Na]. destruct (Req_dec al 0) as [|Nl]; [auto|]. destruct n as [|[|n]]; [lia|auto|].
    right; left. assert (E : (al ^ S n = 1)%R) by (apply (Rmult_eq_reg_l al); [|exact Nl]; change (al * al ^ S n)%R with (al ^ S (S n))%R; lra).
    destruct (Rtotal_order al 1) as [L|[|G]]; [|assumption|]; exfalso.
    + pose proof (pow_lt_1_compat al (S n) (conj Ha L) ltac:(lia)). lra.
    + pose proof (Rlt_pow_R1 al (S n) G ltac:(lia)). lra.
  - intros [->|[->|[->| ->]]]; [cbn; ring|rewrite pow1; reflexivity|rewrite pow_i by lia; reflexivity|ring].
Qed.
Lemma faded_once_iff gg alpha ks gs g c k : (0 <= alpha)%R -> In g gs -> visible gg ks g -> g_rgba g = None -> g_class g = Some k -> shown_color ks g = Some c -> let '(gs', ks') := paint_geoms gg alpha ks gs in
  exists g', In g' gs' /\ g_id g' = g_id g /\ (shown_color ks' g' = Some (mkCol (col_rgb c) (col_a c * alpha)) <-> List.length (borrowers gg ks k gs) = 1 \/ alpha = 1%R \/ alpha = 0%R \/ col_a c = 0%R).
Proof.
  intros Ha Hg Hv Hr Hk Hc. pose proof (fading gg alpha ks gs g Hg Hv) as F. destruct (paint_geoms gg alpha ks gs) as [gs' ks']. rewrite Hr, Hk, Hc in F. destruct F as (g' & I & E & S). exists g'. split; [exact I|]. split; [exact E|]. rewrite S.
  pose proof (power_once (col_a c) alpha _ Ha (borrower_in gg ks k gs g Hg Hv Hr Hk)) as P. rewrite <- P. split; [intros H; now injection H|intros ->; reflexivity].
Qed.
