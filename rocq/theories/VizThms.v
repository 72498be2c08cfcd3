(** The visualizer theorems. *)
From Coq Require Import Ascii.
From Verif Require Import Base Lin Rot Problem JaxTree JaxTreeFacts Visualize SpecViz VizFacts VizFacts2 VizFacts3 Legacy.
Open Scope nat_scope.

Lemma reached_tidy ga os z : reached ga os z -> tidy_markers z.
Proof. intros (nq & q0 & vs & rs & f & Hf & ->). apply run_tidy; [apply new_tidy|exact Hf]. Qed.
Lemma markers_numbered ga os z : reached ga os z ->
  map (fun e => mk_id (snd e)) (z_markers z) = map Z.of_nat (seq 0 (List.length (z_markers z))) /\ z_n z = Z.of_nat (List.length (z_markers z)) /\
  NoDup (map fst (z_markers z)) /\ (forall n m, In (n, m) (z_markers z) -> mk_name m = n).
Proof. intros H. destruct (reached_tidy _ _ _ H) as [H1 H2 H3 H4 _]. repeat split; assumption. Qed.
Lemma marker_count ga os1 nm sz a cb ce ty n nq q0 vs rs f z z' :
  fresh ga (os1 ++ [VAdd nm sz a cb ce ty n]) (new_viz nq q0 vs rs f) -> z = vrun ga os1 (new_viz nq q0 vs rs f) ->
  vstep ga (VAdd nm sz a cb ce ty n) z = (Ok tt, z') -> map fst (z_markers z') = map fst (z_markers z) ++ names_used nm n /\ z_n z' = (z_n z + n)%Z.
Proof.
  intros Hf -> E. destruct (fresh_app _ _ _ _ Hf) as [_ [H1 _]]. rewrite E in H1. destruct (H1 eq_refl) as [Hnd Hdis]. cbn [vstep] in E.
  destruct (accepted_add _ _ _ _ _ _ _ _ _ E) as (_ & ms & coefs & _ & _ & -> & Hn & _). cbn. split; [|reflexivity].
  rewrite <- Hn in *. rewrite dict_or_fresh by assumption. apply map_app.
Qed.
Lemma blend_color c cb ce col : List.length cb = List.length ce -> color_at cb ce c = Ok col -> col = blend c cb ce.
Proof.
  unfold color_at, np_add, bc2, vscale. rewrite !map_length. intros ->. rewrite Nat.eqb_refl. intros H. injection H as <-. unfold blend.
  revert ce. induction cb as [|x cb IH]; intros [|y ce]; try reflexivity. cbn. f_equal. apply IH.
Qed.
Lemma blend_0 cb ce : List.length cb = List.length ce -> blend 0 cb ce = ce.
Proof. unfold blend. revert ce. induction cb as [|x cb IH]; intros [|y ce] H; try discriminate; [reflexivity|]. cbn. f_equal; [ring|]. apply IH. injection H as ->. reflexivity. Qed.
Lemma blend_1 cb ce : List.length cb = List.length ce -> blend 1 cb ce = cb.
Proof. unfold blend. revert ce. induction cb as [|x cb IH]; intros [|y ce] H; try discriminate; [reflexivity|]. cbn. f_equal; [ring|]. apply IH. injection H as ->. reflexivity. Qed.
Lemma blend_same c cb : blend c cb cb = cb.
Proof. unfold blend. induction cb as [|x cb IH]; [reflexivity|]. cbn. f_equal; [ring|exact IH]. Qed.
Lemma coef_in n k : (0 <= n)%Z -> k < Z.to_nat n -> (0 <= coef n k <= 1)%R.
Proof. intros Hn Hk. unfold coef. destruct (Z.eqb_spec n 1); [lra|]. apply coef_range; lia. Qed.
Lemma coef_first n : (2 <= n)%Z -> coef n 0 = 0%R.
Proof. intros H. unfold coef. destruct (Z.eqb_spec n 1); [lia|]. cbn. unfold Rdiv. ring. Qed.
Lemma coef_last n : (2 <= n)%Z -> coef n (Z.to_nat n - 1) = 1%R.
Proof.
  intros H. unfold coef. destruct (Z.eqb_spec n 1); [lia|]. replace (INR (Z.to_nat n - 1)) with (IZR (n - 1)).
  - unfold Rdiv. apply Rinv_r. apply Rgt_not_eq. apply IZR_lt. lia.
  - rewrite INR_IZR_INZ. f_equal. lia.
Qed.

(** The colour of the k-th marker of a call, at any later time. *)
Section Colours.
  Variables (ga : list R -> list slot) (os1 os2 : list vop) (nm : names) (sz : sizes) (a : R) (cb : list R) (ce : option (list R)) (ty n : Z).
  Variables (nq : nat) (q0 : list R) (vs rs : option (list slot)) (f : string).
  Let z0 := new_viz nq q0 vs rs f.
  Hypothesis Hf : fresh ga (os1 ++ VAdd nm sz a cb ce ty n :: os2) z0.
  Hypothesis Hok : fst (vstep ga (VAdd nm sz a cb ce ty n) (vrun ga os1 z0)) = Ok tt.
  Let final := vrun ga (os1 ++ VAdd nm sz a cb ce ty n :: os2) z0.
  Lemma marker_looks k nk : nth_error (names_used nm n) k = Some nk ->
    exists m col, assoc nk (z_markers final) = Some m /\ mk_name m = nk /\ mk_id m = (z_n (vrun ga os1 z0) + Z.of_nat k)%Z /\ mk_type m = ty /\ mk_size m = size_vector sz /\ mk_rgba m = col ++ [a].
  Proof. intros H. destruct (stored_markers ga os1 nm sz a cb ce ty n os2 z0 _ k nk (new_tidy _ _ _ _ _) Hf eq_refl Hok H) as (m & col & H1 & H2 & H3 & H4 & H5 & H6 & _). exists m, col. repeat split; assumption. Qed.
  Lemma marker_colour k nk e : nth_error (names_used nm n) k = Some nk -> match ce with Some c => e = c | None => e = cb end -> List.length cb = List.length e ->
    exists m, assoc nk (z_markers final) = Some m /\ mk_rgba m = blend (coef n k) cb e ++ [a].
  Proof.
    intros H He Hl. destruct (stored_markers ga os1 nm sz a cb ce ty n os2 z0 _ k nk (new_tidy _ _ _ _ _) Hf eq_refl Hok H) as (m & col & H1 & _ & _ & _ & _ & H6 & H7). exists m. split; [exact H1|]. rewrite H6. f_equal.
    apply blend_color; [exact Hl|]. destruct ce as [c|]; subst e; exact H7.
  Qed.
  Lemma accepted_n : (0 <= n)%Z /\ (forall k nk, nth_error (names_used nm n) k = Some nk -> k < Z.to_nat n).
  Proof.
    cbn [vstep] in Hok. destruct (add_markers nm sz a cb ce ty n _) as [[[]|] z'] eqn:E; [|discriminate].
    destruct (accepted_add _ _ _ _ _ _ _ _ _ E) as (Hn & ms & coefs & _ & Hl & _ & Hnames & _). split; [exact Hn|].
    intros k nk Hk. rewrite <- Hl, <- (map_length fst), Hnames. apply nth_error_Some. congruence.
  Qed.
  Lemma colour_between k nk e : nth_error (names_used nm n) k = Some nk -> match ce with Some c => e = c | None => e = cb end -> List.length cb = List.length e ->
    exists m c, assoc nk (z_markers final) = Some m /\ mk_rgba m = blend c cb e ++ [a] /\ (0 <= c <= 1)%R.
  Proof.
    intros H He Hl. destruct (marker_colour k nk e H He Hl) as (m & H1 & H2). destruct accepted_n as [Hn Hk]. exists m, (coef n k). split; [exact H1|]. split; [exact H2|].
    apply coef_in; [exact Hn|exact (Hk k nk H)].
  Qed.
  Lemma colour_ends e nf nl : ce = Some e -> List.length cb = List.length e -> (2 <= n)%Z ->
    nth_error (names_used nm n) 0 = Some nf -> nth_error (names_used nm n) (Z.to_nat n - 1) = Some nl ->
    exists mf ml, assoc nf (z_markers final) = Some mf /\ mk_rgba mf = e ++ [a] /\ assoc nl (z_markers final) = Some ml /\ mk_rgba ml = cb ++ [a].
  Proof.
    intros He Hl Hn H0 H1. assert (Hm : match ce with Some c => e = c | None => e = cb end) by (rewrite He; reflexivity).
    destruct (marker_colour 0 nf e H0 Hm Hl) as (mf & F1 & F2). destruct (marker_colour _ nl e H1 Hm Hl) as (ml & L1 & L2).
    exists mf, ml. split; [exact F1|]. split; [rewrite F2, coef_first, blend_0 by assumption; reflexivity|]. split; [exact L1|].
    rewrite L2, coef_last, blend_1 by assumption. reflexivity.
  Qed.
  Lemma colour_single e nf : ce = Some e -> List.length cb = List.length e -> n = 1%Z -> nth_error (names_used nm n) 0 = Some nf ->
    exists mf, assoc nf (z_markers final) = Some mf /\ mk_rgba mf = e ++ [a].
  Proof.
    intros He Hl Hn H0. assert (Hm : match ce with Some c => e = c | None => e = cb end) by (rewrite He; reflexivity).
    destruct (marker_colour 0 nf e H0 Hm Hl) as (mf & F1 & F2). exists mf. split; [exact F1|]. rewrite F2. unfold coef. rewrite Hn. cbn [Z.eqb Pos.eqb]. rewrite blend_0 by exact Hl. reflexivity.
  Qed.
  Lemma colour_one k nk : ce = None -> nth_error (names_used nm n) k = Some nk -> exists m, assoc nk (z_markers final) = Some m /\ mk_rgba m = cb ++ [a].
  Proof.
    intros He H. assert (Hm : match ce with Some c => cb = c | None => cb = cb end) by (rewrite He; reflexivity).
    destruct (marker_colour k nk cb H Hm eq_refl) as (m & F1 & F2). exists m. split; [exact F1|]. rewrite F2, blend_same. reflexivity.
  Qed.
End Colours.

(** ** drawing *)
Lemma drawn_in_viewer ga os z q s : reached ga os z -> z_viewer z = Some s -> Forall (fun e => drawable (snd e)) (z_markers z) ->
  List.length (t_data q) = z_nq z -> (z_n z <= Z.of_nat (List.length (sc_slots s)))%Z ->
  exists s', z_viewer (snd (viz_update ga q z)) = Some s' /\ sc_ngeom s' = z_n z /\
    (forall e, In e (z_markers z) -> exists g, nth_error (sc_slots s') (Z.to_nat (mk_id (snd e))) = Some g /\ shows (snd e) g) /\
    (forall j, Z.to_nat (z_n z) <= j -> nth_error (sc_slots s') j = nth_error (sc_slots s) j).
Proof.
  intros Hr Hv Hd Hq Hc. destruct (update_viewer ga q z s (reached_tidy _ _ _ Hr) Hv Hd Hq Hc) as (s' & H1 & H2 & _ & H3 & H4). exists s'. repeat split; assumption.
Qed.
Lemma drawn_over_geoms ga os z q s fr : reached ga os z -> z_renderer z = Some s -> (forall v, z_viewer z = Some v -> (z_n z <= Z.of_nat (List.length (sc_slots v)))%Z) -> z_frames z = Some fr ->
  Forall (fun e => drawable (snd e)) (z_markers z) -> List.length (t_data q) = z_nq z ->
  List.length (z_markers z) <= List.length (ga (t_data q)) -> List.length (ga (t_data q)) <= List.length (sc_slots s) ->
  exists z' f, viz_update ga q z = (Ok tt, z') /\ z_frames z' = Some (fr ++ [f]) /\ List.length f = List.length (ga (t_data q)) /\
    (forall j, j < List.length (ga (t_data q)) - List.length (z_markers z) -> nth_error f j = nth_error (ga (t_data q)) j) /\
    (forall e, In e (z_markers z) -> exists g, nth_error f (List.length (ga (t_data q)) - List.length (z_markers z) + Z.to_nat (mk_id (snd e))) = Some g /\ shows (snd e) g).
Proof. intros Hr. apply recorded_frame. exact (reached_tidy _ _ _ Hr). Qed.
Lemma no_markers_frame ga os z q s fr : reached ga os z -> z_markers z = [] -> z_renderer z = Some s -> z_frames z = Some fr ->
  List.length (t_data q) = z_nq z -> List.length (ga (t_data q)) <= List.length (sc_slots s) ->
  exists z', viz_update ga q z = (Ok tt, z') /\ z_frames z' = Some (fr ++ [ga (t_data q)]).
Proof.
  intros Hr Hm Hs Hfr Hq Hmax. pose proof (tm_n z (reached_tidy _ _ _ Hr)) as Hn. rewrite Hm in Hn. cbn in Hn.
  destruct (drawn_over_geoms ga os z q s fr Hr Hs) as (z' & f & H1 & H2 & H3 & H4 & _); try assumption.
  - intros v _. rewrite Hn. lia.
  - rewrite Hm. constructor.
  - rewrite Hm. cbn. lia.
  - exists z'. split; [exact H1|]. rewrite H2. do 3 f_equal. rewrite Hm in H4. cbn [List.length] in H4.
    apply nth_error_ext'. intros k. destruct (Nat.ltb_spec k (List.length (ga (t_data q)))) as [Hk|Hk]; [apply H4; lia|].
    transitivity (@None slot); [apply nth_error_None; lia|symmetry; apply nth_error_None; lia].
Qed.
Lemma viewer_geoms_kept ga os z q s : reached ga os z -> z_viewer z = Some s -> Forall (fun e => drawable (snd e)) (z_markers z) ->
  List.length (t_data q) = z_nq z -> (z_n z <= Z.of_nat (List.length (sc_slots s)))%Z -> z_qpos (snd (viz_update ga q z)) = t_data q.
Proof. intros Hr Hv Hd Hq Hc. destruct (update_viewer ga q z s (reached_tidy _ _ _ Hr) Hv Hd Hq Hc) as (s' & _ & _ & H & _). exact H. Qed.

(** ** recording *)
Lemma frames_recorded ga os nq q0 vs s0 f : let z := vrun ga os (new_viz nq q0 vs (Some s0) f) in
  exists fr, z_frames z = Some fr /\ List.length fr = updates_done ga os (new_viz nq q0 vs (Some s0) f) /\
  forall stamp fps, save_video stamp fps z = Ok (Some (String.append (if String.eqb f "" then stamp else f) ".mp4", fr, fps)).
Proof.
  destruct (run_frames ga os (new_viz nq q0 vs (Some s0) f) [] (mkScn s0 0) eq_refl eq_refl) as (fr & s & H1 & H2 & H3 & H4). cbn [app] in H1.
  exists fr. split; [exact H1|]. split; [exact H4|]. intros stamp fps. unfold save_video. rewrite H2, H1, H3. cbn [new_viz z_filename]. destruct f; reflexivity.
Qed.
Lemma frames_grow ga os1 os2 nq q0 vs s0 f : exists fr1 fr2,
  z_frames (vrun ga os1 (new_viz nq q0 vs (Some s0) f)) = Some fr1 /\ z_frames (vrun ga (os1 ++ os2) (new_viz nq q0 vs (Some s0) f)) = Some (fr1 ++ fr2).
Proof.
  destruct (run_frames ga os1 (new_viz nq q0 vs (Some s0) f) [] (mkScn s0 0) eq_refl eq_refl) as (fr & s & H1 & H2 & H3 & H4). cbn [app] in H1.
  destruct (run_frames ga os2 _ fr s H1 H2) as (fr2 & s2 & K1 & _). exists fr, fr2. split; [exact H1|]. unfold vrun. rewrite fold_left_app. exact K1.
Qed.
Lemma step_no_renderer ga o z : z_renderer z = None -> z_renderer (snd (vstep ga o z)) = None.
Proof.
  intros H. destruct o as [nm sz a cb ce ty n|nm p r|q]; cbn [vstep].
  - destruct (add_markers nm sz a cb ce ty n z) as [[[]|e] z'] eqn:E.
    + destruct (accepted_add _ _ _ _ _ _ _ _ _ E) as (_ & ms & coefs & _ & _ & -> & _). cbn. rewrite H. reflexivity.
    + rewrite (failed_add _ _ _ _ _ _ _ _ _ _ E). exact H.
  - unfold move_marker. destruct (assoc nm (z_markers z)); exact H.
  - unfold viz_update. destruct (negb _); [exact H|]. destruct (match z_viewer z with None => _ | Some s0 => _ end) as [[[]|] v1]; [|exact H]. rewrite H. reflexivity.
Qed.
Lemma not_recorded ga os nq q0 vs f stamp fps : save_video stamp fps (vrun ga os (new_viz nq q0 vs None f)) = Ok None.
Proof.
  assert (H : z_renderer (vrun ga os (new_viz nq q0 vs None f)) = None).
  { set (z := new_viz nq q0 vs None f). assert (Hz : z_renderer z = None) by reflexivity. clearbody z. revert z Hz. induction os as [|o r IH]; intros z Hz; [exact Hz|].
    cbn [vrun fold_left]. apply IH. apply step_no_renderer. exact Hz. }
  unfold save_video. rewrite H. reflexivity.
Qed.
Lemma after_close z stamp fps s : z_renderer z = Some s -> save_video stamp fps (close z) = Err AttributeError.
Proof. intros H. unfold close, save_video. rewrite H. reflexivity. Qed.

(** ** layout of the combined configuration *)
Lemma concat_block {A} (rows : list (list A)) m : (forall r, In r rows -> List.length r = m) -> forall i r, nth_error rows i = Some r -> firstn m (skipn (i * m) (List.concat rows)) = r.
Proof.
  intros H. induction rows as [|x rows IH]; intros i r Hi; [destruct i; discriminate|]. pose proof (H x (or_introl eq_refl)) as Hx. destruct i as [|i]; cbn [nth_error Nat.mul List.concat] in *.
  - injection Hi as <-. rewrite skipn_O. rewrite <- Hx, firstn_app, Nat.sub_diag, firstn_all. cbn. apply app_nil_r.
  - rewrite skipn_app. rewrite skipn_all2 by lia. cbn [app]. rewrite Hx. replace (m + i * m - m) with (i * m) by lia. apply IH; [|exact Hi]. intros y Hy. apply H. right. exact Hy.
Qed.
Lemma rows_shown ga z rows m r' z' : (forall r, In r rows -> List.length r = m) -> viz_update ga (mkT [List.length rows; m] (List.concat rows)) z = (r', z') ->
  if Nat.eqb (List.length rows * m) (z_nq z) then forall i r, nth_error rows i = Some r -> firstn m (skipn (i * m) (z_qpos z')) = r
  else r' = Err ValueError /\ z' = z.
Proof.
  intros H E. assert (Hl : List.length (List.concat rows) = List.length rows * m).
  { clear E. induction rows as [|x rows IH]; [reflexivity|]. cbn. rewrite app_length, IH by (intros y Hy; apply H; right; exact Hy). rewrite (H x (or_introl eq_refl)). reflexivity. }
  unfold viz_update in E. cbn [t_data] in E. rewrite Hl in E. destruct (Nat.eqb _ _); cbn [negb] in E.
  - assert (Hz : z_qpos z' = List.concat rows).
    { destruct (match z_viewer z with None => _ | Some s0 => _ end) as [[[]|] v1]; [|injection E as _ <-; reflexivity].
      destruct (z_renderer z); [|injection E as _ <-; reflexivity]. destruct (draw_markers _ _ _) as [[[]|] t1]; destruct (z_frames z); injection E as _ <-; reflexivity. }
    intros i r Hi. rewrite Hz. apply concat_block; assumption.
  - injection E as <- <-. split; reflexivity.
Qed.
Lemma joints_of_body x : is_body x = true -> joints_in x = flat_map joints_in (x_kids x).
Proof.
  intros Hb. unfold joints_in. cbn [filter]. assert (Hj : is_joint x = false).
  { unfold is_joint, is_body in *. apply String.eqb_eq in Hb. rewrite Hb. reflexivity. }
  rewrite Hj. destruct x as [u t a ks]. cbn [x_kids descendants]. clear. induction ks as [|k r IH]; [reflexivity|].
  cbn [flat_map]. rewrite <- IH. rewrite filter_app. unfold uids. apply map_app.
Qed.
Lemma hoisted_joints kids : NoDup (uids kids) ->
  flat_map joints_in (hoist kids) = flat_map joints_in (filter (fun x => negb (is_body x)) kids) ++ flat_map joints_in (filter is_body kids).
Proof.
  intros H. rewrite (hoist_spec kids H), flat_map_app. f_equal.
  assert (Hall : forall x, In x (filter is_body kids) -> is_body x = true) by (intros x Hx; apply filter_In in Hx as [_ Hx]; exact Hx).
  induction (filter is_body kids) as [|x r IH]; [reflexivity|]. cbn [flat_map]. rewrite flat_map_app, IH by (intros y Hy; apply Hall; right; exact Hy).
  rewrite (joints_of_body x) by (apply Hall; left; reflexivity). reflexivity.
Qed.

(** ** transparency *)
Lemma kept_geoms gg alpha ks gs : let '(gs', ks') := paint_geoms gg alpha ks gs in
  exists kept, (forall g, In g kept <-> In g gs /\ visible gg ks g) /\ List.length gs' = List.length kept /\ map g_id gs' = map g_id kept /\
  kept = filter (fun g => match geom_group_of ks g with Some x => (x =? gg)%Z | None => true end) gs /\
  Forall (fun g => g_contype g = 0%Z /\ g_conaffinity g = 0%Z) gs'.
Proof.
  pose proof (paint_spec gg alpha gs ks) as H. destruct (paint_geoms gg alpha ks gs) as [gs' ks']. destruct H as (-> & _ & _).
  exists (filter (visibleb gg ks) gs). split; [intros g; rewrite filter_In, visibleb_iff; reflexivity|]. split; [apply map_length|]. split; [rewrite map_map; reflexivity|]. split; [reflexivity|].
  apply Forall_forall. intros g Hg. apply in_map_iff in Hg as (x & <- & _). split; reflexivity.
Qed.
(** The colour shown for a visible geom afterwards. *)
Lemma fading gg alpha ks gs g : In g gs -> visible gg ks g -> let '(gs', ks') := paint_geoms gg alpha ks gs in
  exists g', In g' gs' /\ g_id g' = g_id g /\
  match g_rgba g, g_class g with
  | Some c, _ => shown_color ks' g' = Some (mkCol (col_rgb c) (col_a c * alpha))
  | None, Some k => match shown_color ks g with
                    | Some c => shown_color ks' g' = Some (mkCol (col_rgb c) (col_a c * alpha ^ List.length (borrowers gg ks k gs)))
                    | None => shown_color ks' g' = None end
  | None, None => shown_color ks' g' = None
  end.
Proof.
  intros Hg Hv. pose proof (paint_spec gg alpha gs ks) as H. destruct (paint_geoms gg alpha ks gs) as [gs' ks']. destruct H as (-> & _ & Hk).
  exists (painted alpha g). split; [apply in_map; apply filter_In; split; [exact Hg|apply visibleb_iff; exact Hv]|]. split; [reflexivity|].
  unfold shown_color, painted. cbn [g_rgba g_class]. destruct (g_rgba g) as [c|]; [reflexivity|]. cbn [option_map]. destruct (g_class g) as [k|]; [|reflexivity].
  rewrite Hk. destruct (nth_error ks k) as [[gr [c|]]|]; try reflexivity. cbn [option_map k_rgba]. destruct (fade_n_alpha (List.length (borrowers gg ks k gs)) alpha c) as [E1 E2].
  destruct (fade_n _ alpha c) as [rgb al]. cbn in E1, E2. rewrite E1, E2. reflexivity.
Qed.
Lemma faded_once gg alpha ks gs g c : In g gs -> visible gg ks g -> shown_color ks g = Some c ->
  (g_rgba g = None -> forall k, g_class g = Some k -> borrowers gg ks k gs = [g]) -> let '(gs', ks') := paint_geoms gg alpha ks gs in
  exists g', In g' gs' /\ g_id g' = g_id g /\ shown_color ks' g' = Some (mkCol (col_rgb c) (col_a c * alpha)).
Proof.
  intros Hg Hv Hc Hone. pose proof (fading gg alpha ks gs g Hg Hv) as H. destruct (paint_geoms gg alpha ks gs) as [gs' ks']. destruct H as (g' & H1 & H2 & H3).
  exists g'. split; [exact H1|]. split; [exact H2|]. rewrite Hc in H3. unfold shown_color in Hc. destruct (g_rgba g) as [c0|] eqn:Er; [injection Hc as <-; exact H3|].
  destruct (g_class g) as [k|]; [|discriminate]. rewrite (Hone eq_refl k eq_refl) in H3. cbn [List.length pow] in H3. rewrite Rmult_1_r in H3. exact H3.
Qed.
Lemma materials_faded alpha m : paint_material alpha m = Some (match m with Some c => mkCol (col_rgb c) (col_a c * alpha) | None => mkCol [1; 1; 1]%R alpha end).
Proof. destruct m; reflexivity. Qed.

(** ** the legacy module *)
Lemma not_importable names : ~ In "Model"%string names -> import_module names = Err AttributeError.
Proof.
  intros H. unfold import_module, looked_up. cbn [forallb]. destruct (existsb (String.eqb "Model") names) eqn:E; [|reflexivity].
  apply existsb_exists in E as (x & Hx & Ex). apply String.eqb_eq in Ex. subst x. contradiction.
Qed.
Lemma not_constructible {M D A} names methods (args : list A) (wi : list A -> res (legacy M D)) : import_module names = Ok methods ->
  (args <> [] -> construct methods args wi = Err TypeError) /\
  (args = [] -> exists o, construct methods args wi = Ok o /\ forall Q make (set_qpos : Q -> D -> D) fp cp q, update make set_qpos fp cp o q = Err AttributeError).
Proof.
  unfold import_module. destruct (forallb _ _); [|discriminate]. intros H. injection H as <-. unfold construct. cbn [existsb methods_defined]. split.
  - destruct args; [contradiction|reflexivity].
  - intros ->. eexists. split; [reflexivity|]. reflexivity.
Qed.
Lemma ignores_q {M D Q} make (set_qpos : Q -> D -> D) fp cp (o : legacy M D) q q' : update make set_qpos fp cp o q = update make set_qpos fp cp o q'.
Proof. reflexivity. Qed.
