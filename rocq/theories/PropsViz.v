(** C68-C74, C78-C80: the visualizer and the legacy module. *)
From Coq Require Import Ascii.
From Verif Require Import Base Lin Rot Problem JaxTree Visualize Legacy SpecViz VizFacts VizFacts2 VizFacts3 HashFacts VizThms VizCases.
Open Scope nat_scope.

(** ** C68.  After any history of add_markers, marker moves and updates with fresh
    names. *)
Theorem C68_numbering ga os z : reached ga os z ->
  map (fun e => mk_id (snd e)) (z_markers z) = map Z.of_nat (seq 0 (List.length (z_markers z))) /\ z_n z = Z.of_nat (List.length (z_markers z)) /\
  NoDup (map fst (z_markers z)) /\ (forall n m, In (n, m) (z_markers z) -> mk_name m = n).
Proof. exact (markers_numbered ga os z). Qed.
Print Assumptions C68_numbering.
Theorem C68_stored ga os1 os2 nm sz a cb ce ty n nq q0 vs rs f :
  fresh ga (os1 ++ VAdd nm sz a cb ce ty n :: os2) (new_viz nq q0 vs rs f) ->
  fst (vstep ga (VAdd nm sz a cb ce ty n) (vrun ga os1 (new_viz nq q0 vs rs f))) = Ok tt ->
  forall k nk, nth_error (names_used nm n) k = Some nk ->
  exists m col, assoc nk (z_markers (vrun ga (os1 ++ VAdd nm sz a cb ce ty n :: os2) (new_viz nq q0 vs rs f))) = Some m /\
    mk_name m = nk /\ mk_id m = (z_n (vrun ga os1 (new_viz nq q0 vs rs f)) + Z.of_nat k)%Z /\ mk_type m = ty /\ mk_size m = size_vector sz /\ mk_rgba m = col ++ [a].
Proof. exact (marker_looks ga os1 os2 nm sz a cb ce ty n nq q0 vs rs f). Qed.
Print Assumptions C68_stored.
Theorem C68_names_added ga os1 nm sz a cb ce ty n nq q0 vs rs f z z' :
  fresh ga (os1 ++ [VAdd nm sz a cb ce ty n]) (new_viz nq q0 vs rs f) -> z = vrun ga os1 (new_viz nq q0 vs rs f) ->
  vstep ga (VAdd nm sz a cb ce ty n) z = (Ok tt, z') -> map fst (z_markers z') = map fst (z_markers z) ++ names_used nm n /\ z_n z' = (z_n z + n)%Z.
Proof. exact (marker_count ga os1 nm sz a cb ce ty n nq q0 vs rs f z z'). Qed.
Print Assumptions C68_names_added.
Theorem C68_rejected_call_changes_nothing nm sz a cb ce ty n z e z' : add_markers nm sz a cb ce ty n z = (Err e, z') -> z' = z.
Proof. exact (failed_add nm sz a cb ce ty n z e z'). Qed.
Print Assumptions C68_rejected_call_changes_nothing.
(** The viewer shows each marker in the slot of its id and nothing else changes. *)
Theorem C68_drawn ga os z q s : reached ga os z -> z_viewer z = Some s -> Forall (fun e => drawable (snd e)) (z_markers z) ->
  List.length (t_data q) = z_nq z -> (z_n z <= Z.of_nat (List.length (sc_slots s)))%Z ->
  exists s', z_viewer (snd (viz_update ga q z)) = Some s' /\ sc_ngeom s' = z_n z /\
    (forall e, In e (z_markers z) -> exists g, nth_error (sc_slots s') (Z.to_nat (mk_id (snd e))) = Some g /\ shows (snd e) g) /\
    (forall j, Z.to_nat (z_n z) <= j -> nth_error (sc_slots s') j = nth_error (sc_slots s) j).
Proof. exact (drawn_in_viewer ga os z q s). Qed.
Print Assumptions C68_drawn.
Example C68_case : exists z, reached two_geoms [add_two; turn_b; add_one] z /\
  map (fun e => (fst e, mk_id (snd e))) (z_markers z) = [("a", 0); ("b", 1); ("c", 2)]%string%Z /\ z_n z = 3%Z /\ Forall (fun e => drawable (snd e)) (z_markers z) /\
  exists s, z_viewer z = Some s /\ List.length (sc_slots s) = 4 /\
  exists s' g, z_viewer (snd (viz_update two_geoms at34 z)) = Some s' /\ nth_error (sc_slots s') 1 = Some g /\ sl_pos g = [7; 8; 9]%R /\ nth_error (sc_slots s') 3 = Some empty_slot.
Proof. exact markers_case. Qed.

(** ** C69.  Every marker has a convex combination of the two colours, but in the
    opposite order: the first marker of two or more has color_end, the last
    color_begin; a single marker has color_end. *)
Theorem C69_convex_partial ga os1 os2 nm sz a cb ce ty n nq q0 vs rs f :
  fresh ga (os1 ++ VAdd nm sz a cb ce ty n :: os2) (new_viz nq q0 vs rs f) ->
  fst (vstep ga (VAdd nm sz a cb ce ty n) (vrun ga os1 (new_viz nq q0 vs rs f))) = Ok tt ->
  forall k nk e, nth_error (names_used nm n) k = Some nk -> match ce with Some c => e = c | None => e = cb end -> List.length cb = List.length e ->
  exists m c, assoc nk (z_markers (vrun ga (os1 ++ VAdd nm sz a cb ce ty n :: os2) (new_viz nq q0 vs rs f))) = Some m /\ mk_rgba m = blend c cb e ++ [a] /\ (0 <= c <= 1)%R.
Proof. exact (colour_between ga os1 os2 nm sz a cb ce ty n nq q0 vs rs f). Qed.
Print Assumptions C69_convex_partial.
Theorem C69_order_refuted ga os1 os2 nm sz a cb ce ty n nq q0 vs rs f :
  fresh ga (os1 ++ VAdd nm sz a cb ce ty n :: os2) (new_viz nq q0 vs rs f) ->
  fst (vstep ga (VAdd nm sz a cb ce ty n) (vrun ga os1 (new_viz nq q0 vs rs f))) = Ok tt ->
  forall e nf nl, ce = Some e -> List.length cb = List.length e -> (2 <= n)%Z ->
  nth_error (names_used nm n) 0 = Some nf -> nth_error (names_used nm n) (Z.to_nat n - 1) = Some nl ->
  let z := vrun ga (os1 ++ VAdd nm sz a cb ce ty n :: os2) (new_viz nq q0 vs rs f) in
  exists mf ml, assoc nf (z_markers z) = Some mf /\ mk_rgba mf = e ++ [a] /\ assoc nl (z_markers z) = Some ml /\ mk_rgba ml = cb ++ [a].
Proof. exact (colour_ends ga os1 os2 nm sz a cb ce ty n nq q0 vs rs f). Qed.
Print Assumptions C69_order_refuted.
Theorem C69_single_refuted ga os1 os2 nm sz a cb ce ty n nq q0 vs rs f :
  fresh ga (os1 ++ VAdd nm sz a cb ce ty n :: os2) (new_viz nq q0 vs rs f) ->
  fst (vstep ga (VAdd nm sz a cb ce ty n) (vrun ga os1 (new_viz nq q0 vs rs f))) = Ok tt ->
  forall e nf, ce = Some e -> List.length cb = List.length e -> n = 1%Z -> nth_error (names_used nm n) 0 = Some nf ->
  exists mf, assoc nf (z_markers (vrun ga (os1 ++ VAdd nm sz a cb ce ty n :: os2) (new_viz nq q0 vs rs f))) = Some mf /\ mk_rgba mf = e ++ [a].
Proof. exact (colour_single ga os1 os2 nm sz a cb ce ty n nq q0 vs rs f). Qed.
Print Assumptions C69_single_refuted.
Theorem C69_one_colour ga os1 os2 nm sz a cb ce ty n nq q0 vs rs f :
  fresh ga (os1 ++ VAdd nm sz a cb ce ty n :: os2) (new_viz nq q0 vs rs f) ->
  fst (vstep ga (VAdd nm sz a cb ce ty n) (vrun ga os1 (new_viz nq q0 vs rs f))) = Ok tt ->
  forall k nk, ce = None -> nth_error (names_used nm n) k = Some nk ->
  exists m, assoc nk (z_markers (vrun ga (os1 ++ VAdd nm sz a cb ce ty n :: os2) (new_viz nq q0 vs rs f))) = Some m /\ mk_rgba m = cb ++ [a].
Proof. exact (colour_one ga os1 os2 nm sz a cb ce ty n nq q0 vs rs f). Qed.
Print Assumptions C69_one_colour.
(** red to blue requested: marker a is blue and b is red. *)
Example C69_case : fresh two_geoms [add_two; turn_b; add_one; VUpdate at34] viewer0 /\
  exists ma mb mc, let z := vrun two_geoms [add_two; turn_b; add_one] viewer0 in
  assoc "a" (z_markers z) = Some ma /\ mk_rgba ma = [0; 0; 1; 1]%R /\ assoc "b" (z_markers z) = Some mb /\ mk_rgba mb = [1; 0; 0; 1]%R /\
  assoc "c" (z_markers z) = Some mc /\ mk_rgba mc = [1; 0; 0; 1]%R.
Proof. exact (conj history_fresh colours_case). Qed.

(** ** C70. *)
Theorem C70_quaternion m w x y z : mk_rot m = mkT [4] [w; x; y; z] ->
  rot_matrix m = Ok (m3_list (q_mat (mkQ w x y z))) /\
  (q_norm2 (mkQ w x y z) = 1%R -> is_rotation (q_mat (mkQ w x y z)) /\ forall p, m3_app (q_mat (mkQ w x y z)) p = q_app (mkQ w x y z) p).
Proof. intros H. split; [exact (rot_matrix_quat m w x y z H)|]. intros Hn. split; [exact (q_mat_rotation _ Hn)|]. intros p. exact (q_mat_app _ p Hn). Qed.
Print Assumptions C70_quaternion.
Theorem C70_shapes m :
  (forall d, rot_matrix m = Ok d -> (exists n k, t_shape (mk_rot m) = [n; k] /\ d = t_data (mk_rot m)) \/ (exists n, t_shape (mk_rot m) = [n] /\ List.length (t_data (mk_rot m)) = 4)) /\
  ((exists n k, t_shape (mk_rot m) = [n; k]) -> rot_matrix m = Ok (t_data (mk_rot m))) /\
  ((exists n, t_shape (mk_rot m) = [n] /\ List.length (t_data (mk_rot m)) <> 4) \/ (List.length (t_shape (mk_rot m)) <> 1 /\ List.length (t_shape (mk_rot m)) <> 2) -> rot_matrix m = Err ValueError).
Proof. exact (rot_matrix_shape m). Qed.
Print Assumptions C70_shapes.
Example C70_case : q_norm2 (mkQ 0 1 0 0) = 1%R /\ m3_list (q_mat (mkQ 0 1 0 0)) = [1; 0; 0; 0; -1; 0; 0; 0; -1]%R.
Proof. split; [unfold q_norm2; cbn [qw qx qy qz]; ring|]. unfold m3_list, q_mat. cbn [m00 m01 m02 m10 m11 m12 m20 m21 m22 qw qx qy qz]. repeat (apply f_equal2; [ring|]). reflexivity. Qed.

(** ** C71. *)
Theorem C71_hoist u g a pre wu wa kids post : Forall (no_tag "worldbody") pre -> NoDup (uids kids) ->
  hoist_root (El u g a (pre ++ El wu "worldbody" wa kids :: post))
  = El u g a (pre ++ El wu "worldbody" wa (filter (fun x => negb (is_body x)) kids ++ flat_map x_kids (filter is_body kids)) :: post).
Proof. exact (hoist_root_spec u g a pre wu wa kids post). Qed.
Print Assumptions C71_hoist.
Theorem C71_no_worldbody u g a ks : Forall (no_tag "worldbody") ks -> hoist_root (El u g a ks) = El u g a ks.
Proof. exact (hoist_root_none u g a ks). Qed.
Print Assumptions C71_no_worldbody.
Theorem C71_file_names name hash ext : ~ has_char "-" hash -> ~ has_char "-" ext -> ~ has_char "." ext ->
  strip_hash (String.append name (String "-" (String.append hash (String "." ext)))) = String.append name (String "." ext).
Proof. exact (strip_hash_spec name hash ext). Qed.
Print Assumptions C71_file_names.
Example C71_case : hoist_root document =
  El 0 "mujoco" []
   [El 1 "asset" [] [El 2 "mesh" [("name", "m"); ("file", "part-0a1b.stl")]%string []; El 3 "texture" [("type", "skybox")]%string []];
    El 4 "worldbody" [] [leaf 5 "site"; leaf 12 "site"; leaf 7 "light"; body 8 [leaf 9 "joint"; body 10 [leaf 11 "joint"]]; body 14 [leaf 15 "freejoint"]]] /\
  strip_hash "left-arm-0a1b.stl" = "left-arm.stl"%string.
Proof. exact document_case. Qed.
(** A file name without a hash is not left alone: its extension is doubled, less one character.
    Without an extension the last character of the hash stays.  Without either, nothing changes. *)
Theorem C71_name_without_hash name ext a : ~ has_char "-" (String.append name (String "." (String.append ext (String a "")))) -> ~ has_char "." (String.append ext (String a "")) ->
  strip_hash (String.append name (String "." (String.append ext (String a ""))))
  = String.append name (String "." (String.append ext (String "." (String.append ext (String a ""))))).
Proof. exact (strip_no_hash name ext a). Qed.
Print Assumptions C71_name_without_hash.
Theorem C71_name_without_extension name hash a : ~ has_char "." (String.append name (String "-" (String.append hash (String a "")))) -> ~ has_char "-" (String.append hash (String a "")) ->
  strip_hash (String.append name (String "-" (String.append hash (String a "")))) = String.append name (String a "").
Proof. exact (strip_no_extension name hash a). Qed.
Print Assumptions C71_name_without_extension.
Theorem C71_plain_name s a : ~ has_char "-" (String.append s (String a "")) -> ~ has_char "." (String.append s (String a "")) ->
  strip_hash (String.append s (String a "")) = String.append s (String a "").
Proof. exact (strip_plain s a). Qed.
Print Assumptions C71_plain_name.
Example C71_names_case : strip_hash "part.stl" = "part.st.stl"%string /\ strip_hash "part-0a1b" = "partb"%string /\ strip_hash "part" = "part"%string.
Proof. repeat split. Qed.

(** ** C72.  Exactly the visible geoms are kept, without collisions; a geom with its own
    colour is faded once; one coloured by its class is faded once per visible geom
    coloured by that class; one without any colour is not faded. *)
Theorem C72_kept gg alpha ks gs : let '(gs', ks') := paint_geoms gg alpha ks gs in
  exists kept, (forall g, In g kept <-> In g gs /\ visible gg ks g) /\ List.length gs' = List.length kept /\ map g_id gs' = map g_id kept /\
  kept = filter (fun g => match geom_group_of ks g with Some x => (x =? gg)%Z | None => true end) gs /\
  Forall (fun g => g_contype g = 0%Z /\ g_conaffinity g = 0%Z) gs'.
Proof. exact (kept_geoms gg alpha ks gs). Qed.
Print Assumptions C72_kept.
Theorem C72_faded_once_partial gg alpha ks gs g c : In g gs -> visible gg ks g -> shown_color ks g = Some c ->
  (g_rgba g = None -> forall k, g_class g = Some k -> borrowers gg ks k gs = [g]) -> let '(gs', ks') := paint_geoms gg alpha ks gs in
  exists g', In g' gs' /\ g_id g' = g_id g /\ shown_color ks' g' = Some (mkCol (col_rgb c) (col_a c * alpha)).
Proof. exact (faded_once gg alpha ks gs g c). Qed.
Print Assumptions C72_faded_once_partial.
Theorem C72_shared_class_refuted gg alpha ks gs g : In g gs -> visible gg ks g -> let '(gs', ks') := paint_geoms gg alpha ks gs in
  exists g', In g' gs' /\ g_id g' = g_id g /\
  match g_rgba g, g_class g with
  | Some c, _ => shown_color ks' g' = Some (mkCol (col_rgb c) (col_a c * alpha))
  | None, Some k => match shown_color ks g with
                    | Some c => shown_color ks' g' = Some (mkCol (col_rgb c) (col_a c * alpha ^ List.length (borrowers gg ks k gs)))
                    | None => shown_color ks' g' = None end
  | None, None => shown_color ks' g' = None
  end.
Proof. exact (fading gg alpha ks gs g). Qed.
Print Assumptions C72_shared_class_refuted.
Theorem C72_materials alpha m : paint_material alpha m = Some (match m with Some c => mkCol (col_rgb c) (col_a c * alpha) | None => mkCol [1; 1; 1]%R alpha end).
Proof. exact (materials_faded alpha m). Qed.
Print Assumptions C72_materials.
(** Two geoms share a class: alpha 1/2 makes them 1/4; the uncoloured one has none. *)
Example C72_case : (let '(gs', ks') := paint_geoms 2 (1 / 2) classes geoms in
  map g_id gs' = [0; 1; 3; 4] /\ Forall (fun g => g_contype g = 0%Z) gs' /\
  map (fun g => option_map col_a (shown_color ks' g)) gs' = [Some (1 / 4); Some (1 / 4); Some (1 / 2); None]%R) /\
  (let ks := [mkK None (Some (mkCol [1; 0; 0]%R 1))] in let g := mkG 0 None (Some 0) None 1 1 in
  visible 2 ks g /\ shown_color ks g = Some (mkCol [1; 0; 0]%R 1) /\ borrowers 2 ks 0 [g; mkG 1 (Some 5%Z) (Some 0) None 1 1] = [g]).
Proof. exact (conj painting_case sole_case). Qed.

(** ** C73.  A recorded frame has as many geoms as the model; with N markers its last N
    geoms are the markers, so that many model geoms are missing. *)
Theorem C73_geoms_replaced_refuted ga os z q s fr : reached ga os z -> z_renderer z = Some s -> (forall v, z_viewer z = Some v -> (z_n z <= Z.of_nat (List.length (sc_slots v)))%Z) -> z_frames z = Some fr ->
  Forall (fun e => drawable (snd e)) (z_markers z) -> List.length (t_data q) = z_nq z ->
  List.length (z_markers z) <= List.length (ga (t_data q)) -> List.length (ga (t_data q)) <= List.length (sc_slots s) ->
  exists z' f, viz_update ga q z = (Ok tt, z') /\ z_frames z' = Some (fr ++ [f]) /\ List.length f = List.length (ga (t_data q)) /\
    (forall j, j < List.length (ga (t_data q)) - List.length (z_markers z) -> nth_error f j = nth_error (ga (t_data q)) j) /\
    (forall e, In e (z_markers z) -> exists g, nth_error f (List.length (ga (t_data q)) - List.length (z_markers z) + Z.to_nat (mk_id (snd e))) = Some g /\ shows (snd e) g).
Proof. exact (drawn_over_geoms ga os z q s fr). Qed.
Print Assumptions C73_geoms_replaced_refuted.
Theorem C73_without_markers_partial ga os z q s fr : reached ga os z -> z_markers z = [] -> z_renderer z = Some s -> z_frames z = Some fr ->
  List.length (t_data q) = z_nq z -> List.length (ga (t_data q)) <= List.length (sc_slots s) ->
  exists z', viz_update ga q z = (Ok tt, z') /\ z_frames z' = Some (fr ++ [ga (t_data q)]).
Proof. exact (no_markers_frame ga os z q s fr). Qed.
Print Assumptions C73_without_markers_partial.
(** One marker, two geoms: the second geom of the frame is the marker. *)
Example C73_case : let z := vrun two_geoms [add_one] viewer0 in exists z' g1 g2,
  viz_update two_geoms at34 z = (Ok tt, z') /\ z_frames z' = Some [[g1; g2]] /\ two_geoms (t_data at34) = [body_slot 3; body_slot 4] /\
  g1 = body_slot 3 /\ sl_type g2 = 3%Z /\ sl_type (body_slot 4) = 5%Z.
Proof. exact frame_case. Qed.

(** ** C74.  The module cannot be imported, because mujoco has no name Model; with such
    a name the class could not be constructed with arguments, objects constructed
    without would have no model; and update does not depend on q. *)
Theorem C74_import_refuted names : ~ In "Model"%string names -> import_module names = Err AttributeError.
Proof. exact (not_importable names). Qed.
Print Assumptions C74_import_refuted.
Theorem C74_construct_refuted {M D A} names methods (args : list A) (wi : list A -> res (legacy M D)) : import_module names = Ok methods ->
  (args <> [] -> construct methods args wi = Err TypeError) /\
  (args = [] -> exists o, construct methods args wi = Ok o /\ forall Q make (set_qpos : Q -> D -> D) fp cp q, update make set_qpos fp cp o q = Err AttributeError).
Proof. exact (not_constructible names methods args wi). Qed.
Print Assumptions C74_construct_refuted.
Theorem C74_update_ignores_q_refuted {M D Q} make (set_qpos : Q -> D -> D) fp cp (o : legacy M D) q q' : update make set_qpos fp cp o q = update make set_qpos fp cp o q'.
Proof. exact (ignores_q make set_qpos fp cp o q q'). Qed.
Print Assumptions C74_update_ignores_q_refuted.
Example C74_case : import_module ["MjModel"; "MjData"; "mjtObj"]%string = Err AttributeError /\ import_module ["Model"; "mjtObj"]%string = Ok methods_defined /\
  update (fun _ : nat => 0) (fun q _ => q) (fun _ d => d) (fun _ d => d) (mkL (Some 1) (Some 5)) 7 = Ok 5.
Proof. repeat split. Qed.

(** ** C78.  Every mesh or texture file of the edited document is among the assets, with
    the content of the first file of that name; files of the same name in different
    directories are confused. *)
Theorem C78_supplied_partial root dirs root' assets : remove_high_level_body_tags root dirs = Ok (root', assets) ->
  forall y f, In y (descendants root') -> is_asset y = true -> file_of y = Some f -> exists c, assoc f assets = Some c /\ find_asset dirs f = Ok c.
Proof. exact (assets_supplied root dirs root' assets). Qed.
Print Assumptions C78_supplied_partial.
Theorem C78_same_name_refuted : exists root, remove_high_level_body_tags twin_files [("/m/left", [("part.stl", "left part")]); ("/m/right", [("part.stl", "right part")])]%string
  = Ok (root, [("part.stl", "left part")]%string) /\ map file_of (descendants root) = [None; Some "part.stl"; Some "part.stl"]%string.
Proof. exact twins_case. Qed.
Print Assumptions C78_same_name_refuted.
Example C78_case : exists root, remove_high_level_body_tags document [("/m", [("scene.xml", "<>")]); ("/m/assets", [("part.stl", "solid")])]%string
  = Ok (root, [("part.stl", "solid")]%string) /\ exists y, In y (descendants root) /\ is_asset y = true /\ file_of y = Some "part.stl"%string.
Proof. exact assets_case. Qed.

(** ** C79. *)
Theorem C79_one_frame_per_update ga os nq q0 vs s0 f : let z := vrun ga os (new_viz nq q0 vs (Some s0) f) in
  exists fr, z_frames z = Some fr /\ List.length fr = updates_done ga os (new_viz nq q0 vs (Some s0) f) /\
  forall stamp fps, save_video stamp fps z = Ok (Some (String.append (if String.eqb f "" then stamp else f) ".mp4", fr, fps)).
Proof. exact (frames_recorded ga os nq q0 vs s0 f). Qed.
Print Assumptions C79_one_frame_per_update.
Theorem C79_frames_only_added ga os1 os2 nq q0 vs s0 f : exists fr1 fr2,
  z_frames (vrun ga os1 (new_viz nq q0 vs (Some s0) f)) = Some fr1 /\ z_frames (vrun ga (os1 ++ os2) (new_viz nq q0 vs (Some s0) f)) = Some (fr1 ++ fr2).
Proof. exact (frames_grow ga os1 os2 nq q0 vs s0 f). Qed.
Print Assumptions C79_frames_only_added.
Theorem C79_not_recording ga os nq q0 vs f stamp fps : save_video stamp fps (vrun ga os (new_viz nq q0 vs None f)) = Ok None.
Proof. exact (not_recorded ga os nq q0 vs f stamp fps). Qed.
Print Assumptions C79_not_recording.
Theorem C79_after_close z stamp fps s : z_renderer z = Some s -> save_video stamp fps (close z) = Err AttributeError.
Proof. exact (after_close z stamp fps s). Qed.
Print Assumptions C79_after_close.
(** Two good updates, one of the wrong size. *)
Example C79_case : let os := [VUpdate at34; VUpdate (mkT [1] [3]%R); add_one; VUpdate at34] in
  updates_done two_geoms os viewer0 = 2 /\ exists fr, save_video "now" 30 (vrun two_geoms os viewer0) = Ok (Some ("run.mp4"%string, fr, 30%R)) /\ List.length fr = 2.
Proof. exact recording_case. Qed.

(** ** C80. *)
Theorem C80_rows ga z rows m r' z' : (forall r, In r rows -> List.length r = m) -> viz_update ga (mkT [List.length rows; m] (List.concat rows)) z = (r', z') ->
  if Nat.eqb (List.length rows * m) (z_nq z) then forall i r, nth_error rows i = Some r -> firstn m (skipn (i * m) (z_qpos z')) = r
  else r' = Err ValueError /\ z' = z.
Proof. exact (rows_shown ga z rows m r' z'). Qed.
Print Assumptions C80_rows.
Theorem C80_joint_order kids : NoDup (uids kids) ->
  flat_map joints_in (hoist kids) = flat_map joints_in (filter (fun x => negb (is_body x)) kids) ++ flat_map joints_in (filter is_body kids).
Proof. exact (hoisted_joints kids). Qed.
Print Assumptions C80_joint_order.
Theorem C80_prefixes_distinct i j : get_prefix i = get_prefix j -> i = j.
Proof. exact (prefix_injective i j). Qed.
Print Assumptions C80_prefixes_distinct.
Example C80_case : let kids := [leaf 5 "site"; body 6 [leaf 7 "light"; body 8 [leaf 9 "joint"; body 10 [leaf 11 "joint"]]]; leaf 12 "site"; body 13 [body 14 [leaf 15 "freejoint"]]] in
  NoDup (uids kids) /\ flat_map joints_in (hoist kids) = [9; 11; 15] /\
  (forall rows, rows = [[1; 2]; [3; 4]]%R -> exists z, viz_update two_geoms (mkT [2; 2] (List.concat rows)) (new_viz 4 [0; 0; 0; 0]%R None None "") = (Ok tt, z) /\ firstn 2 (skipn 2 (z_qpos z)) = [3; 4]%R).
Proof. exact layout_case. Qed.
