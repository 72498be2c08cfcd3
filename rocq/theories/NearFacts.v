(** Series bounds for the parts of jaxlie's logarithm that are approximated. *)
From Verif Require Import Base Lin Rot RotFacts.
Open Scope R_scope.

(** ** Arctangent *)
Lemma grows f f' x : 0 <= x -> (forall c, derivable_pt_lim f c (f' c)) -> (forall c, 0 <= c -> 0 <= f' c) -> f 0 <= f x.
Proof.
  intros [Hx| <-] Hd Hp; [|lra]. destruct (MVT_cor2 f f' 0 x Hx) as (c & E & Hc); [intros; apply Hd|].
  assert (0 <= f' c) by (apply Hp; lra). nra.
Qed.
Lemma atan_rate c : derivable_pt_lim atan c (/ (1 + c * c)).
Proof. pose proof (derivable_pt_lim_atan c) as H. replace (c * c) with (c ^ 2) by ring. exact H. Qed.
Lemma pow_rate k n c : derivable_pt_lim (fun x => k * x ^ n) c (k * (INR n * c ^ pred n)).
Proof. apply (derivable_pt_lim_scal (fun x => x ^ n) k c). apply derivable_pt_lim_pow. Qed.
Lemma atan_upper1 x : 0 <= x -> atan x <= x.
Proof.
  intros H. enough (G : 0 - atan 0 <= x - atan x) by (rewrite atan_0 in G; lra).
  apply (grows (fun t => t - atan t) (fun c => 1 - / (1 + c * c))); [exact H| |].
  - intros c. apply derivable_pt_lim_minus; [apply derivable_pt_lim_id|apply atan_rate].
  - intros c Hc. assert (0 <= c * c) by nra. assert (/ (1 + c * c) <= 1); [|lra]. rewrite <- Rinv_1. apply Rinv_le_contravar; lra.
Qed.
Lemma atan_lower3 x : 0 <= x -> x - 1 / 3 * x ^ 3 <= atan x.
Proof.
  intros H. enough (G : (atan 0 - 0) + 1 / 3 * 0 ^ 3 <= (atan x - x) + 1 / 3 * x ^ 3) by (rewrite atan_0 in G; replace (0 ^ 3) with 0 in G by ring; lra).
  apply (grows (fun t => (atan t - t) + 1 / 3 * t ^ 3) (fun c => (/ (1 + c * c) - 1) + 1 / 3 * (INR 3 * c ^ pred 3))); [exact H| |].
  - intros c. apply (derivable_pt_lim_plus (fun t => atan t - t) (fun t => 1 / 3 * t ^ 3)); [|apply pow_rate].
    apply derivable_pt_lim_minus; [apply atan_rate|apply derivable_pt_lim_id].
  - intros c Hc. replace (/ (1 + c * c) - 1 + 1 / 3 * (INR 3 * c ^ pred 3)) with (c ^ 4 / (1 + c * c)); [|cbn; field; nra].
    apply Rmult_le_pos; [apply pow_le; exact Hc|left; apply Rinv_0_lt_compat; nra].
Qed.
Lemma atan_upper5 x : 0 <= x -> atan x <= x - 1 / 3 * x ^ 3 + 1 / 5 * x ^ 5.
Proof.
  intros H. enough (G : ((0 - atan 0) + (- (1 / 3)) * 0 ^ 3) + 1 / 5 * 0 ^ 5 <= ((x - atan x) + (- (1 / 3)) * x ^ 3) + 1 / 5 * x ^ 5)
    by (rewrite atan_0 in G; replace (0 ^ 3) with 0 in G by ring; replace (0 ^ 5) with 0 in G by ring; lra).
  apply (grows (fun t => ((t - atan t) + (- (1 / 3)) * t ^ 3) + 1 / 5 * t ^ 5) (fun c => ((1 - / (1 + c * c)) + (- (1 / 3)) * (INR 3 * c ^ pred 3)) + 1 / 5 * (INR 5 * c ^ pred 5))); [exact H| |].
  - intros c. apply (derivable_pt_lim_plus (fun t => (t - atan t) + (- (1 / 3)) * t ^ 3) (fun t => 1 / 5 * t ^ 5)); [|apply pow_rate].
    apply (derivable_pt_lim_plus (fun t => t - atan t) (fun t => - (1 / 3) * t ^ 3)); [|apply pow_rate].
    apply derivable_pt_lim_minus; [apply derivable_pt_lim_id|apply atan_rate].
  - intros c Hc. replace (1 - / (1 + c * c) + - (1 / 3) * (INR 3 * c ^ pred 3) + 1 / 5 * (INR 5 * c ^ pred 5)) with (c ^ 6 / (1 + c * c)); [|cbn; field; nra].
    apply Rmult_le_pos; [apply pow_le; exact Hc|left; apply Rinv_0_lt_compat; nra].
Qed.

(** ** The coefficient of the translation: 1 - x cot x *)
Lemma sin_series x : 0 <= x <= 1 -> x - x ^ 3 / 6 <= sin x <= x - x ^ 3 / 6 + x ^ 5 / 120.
Proof.
  intros H. pose proof PI2_1. pose proof PI_RGT_0. destruct (pre_sin_bound x 0) as [A _]; [lra|lra|]. destruct (pre_sin_bound x 0) as [_ B]; [lra|lra|].
  unfold sin_approx, sin_term in A, B. cbn in A, B. split; [eapply Rle_trans; [|exact A]; right; field|eapply Rle_trans; [exact B|]; right; field].
Qed.
Lemma cos_series x : 0 <= x <= 1 -> 1 - x ^ 2 / 2 <= cos x <= 1 - x ^ 2 / 2 + x ^ 4 / 24.
Proof.
  intros H. destruct (pre_cos_bound x 0) as [A _]; [lra|lra|]. destruct (pre_cos_bound x 0) as [_ B]; [lra|lra|].
  unfold cos_approx, cos_term in A, B. cbn in A, B. split; [eapply Rle_trans; [|exact A]; right; field|eapply Rle_trans; [exact B|]; right; field].
Qed.
Lemma cot_series x : 0 < x <= 1 -> x ^ 2 / 3 <= 1 - x * cos x / sin x <= x ^ 2 / 3 + x ^ 4 / 5.
Proof.
  intros H. destruct (sin_series x) as [S1 S2]; [lra|]. destruct (cos_series x) as [C1 C2]; [lra|].
  assert (X1 : x * x <= 1) by nra. assert (P3 : 0 < x ^ 3) by (apply pow_lt; lra). assert (P5 : 0 < x ^ 5) by (apply pow_lt; lra).
  assert (S0 : 0 < sin x). { eapply Rlt_le_trans; [|exact S1]. replace (x - x ^ 3 / 6) with (x * (1 - x * x / 6)) by field. apply Rmult_lt_0_compat; lra. }
  split.
  - assert (K : x * cos x <= (1 - x ^ 2 / 3) * sin x).
    { apply Rle_trans with ((1 - x ^ 2 / 3) * (x - x ^ 3 / 6)); [|apply Rmult_le_compat_l; [nra|exact S1]].
      apply Rle_trans with (x * (1 - x ^ 2 / 2 + x ^ 4 / 24)); [apply Rmult_le_compat_l; lra|]. nra. }
    assert (x * cos x / sin x <= 1 - x ^ 2 / 3); [|lra]. apply (Rmult_le_reg_r (sin x)); [exact S0|]. replace (x * cos x / sin x * sin x) with (x * cos x) by (field; lra). exact K.
  - assert (K : (1 - x ^ 2 / 3 - x ^ 4 / 5) * sin x <= x * cos x).
    { apply Rle_trans with (x * (1 - x ^ 2 / 2)); [|apply Rmult_le_compat_l; lra].
      assert (Q : 0 <= 1 - x ^ 2 / 3 - x ^ 4 / 5) by nra.
      apply Rle_trans with ((1 - x ^ 2 / 3 - x ^ 4 / 5) * (x - x ^ 3 / 6 + x ^ 5 / 120)); [apply Rmult_le_compat_l; [exact Q|exact S2]|].
      replace ((1 - x ^ 2 / 3 - x ^ 4 / 5) * (x - x ^ 3 / 6 + x ^ 5 / 120)) with (x * (1 - x ^ 2 / 2) - x ^ 5 * (49 / 360 - 11 / 360 * (x * x) + (x * x) * (x * x) / 600)) by field.
      assert (0 <= 49 / 360 - 11 / 360 * (x * x) + (x * x) * (x * x) / 600) by nra. nra. }
    assert (1 - x ^ 2 / 3 - x ^ 4 / 5 <= x * cos x / sin x); [|lra]. apply (Rmult_le_reg_r (sin x)); [exact S0|]. replace (x * cos x / sin x * sin x) with (x * cos x) by (field; lra). exact K.
Qed.
