(** Concrete visualizers, documents and geoms. *)
From Coq Require Import Ascii.
From Verif Require Import Base Lin Rot Problem JaxTree JaxTreeFacts Visualize SpecViz VizFacts VizFacts2 VizFacts3 VizThms Legacy.
Open Scope nat_scope.

Definition empty_slot : slot := mkSlot 0 [0; 0; 0]%R [0; 0; 0]%R [1; 0; 0; 0; 1; 0; 0; 0; 1]%R [1; 1; 1; 1]%R.
Definition body_slot (x : R) : slot := mkSlot 5 [1; 1; 1]%R [x; 0; 0]%R [1; 0; 0; 0; 1; 0; 0; 0; 1]%R [1; 0; 0; 1]%R.
(** A model with two geoms, at the two coordinates. *)
Definition two_geoms (q : list R) : list slot := map body_slot q.
Definition red : list R := [1; 0; 0]%R. Definition blue : list R := [0; 0; 1]%R.
Definition viewer0 : viz := new_viz 2 [0; 0]%R (Some [empty_slot; empty_slot; empty_slot; empty_slot]) (Some [empty_slot; empty_slot; empty_slot]) "run".
Definition add_two : vop := VAdd (NList ["a"; "b"]%string) (SzFloat 1) 1 red (Some blue) 2 2.
Definition add_one : vop := VAdd (NStr "c") (SzArr [1; 2; 3]%R) 1 red None 3 1.
Definition turn_b : vop := VMove "b" [7; 8; 9]%R (mkT [4] [0; 1; 0; 0]%R).
Definition at34 : tensor := mkT [2; 1] [3; 4]%R.

Lemma history_fresh : fresh two_geoms [add_two; turn_b; add_one; VUpdate at34] viewer0.
Proof.
  cbn [fresh add_two add_one turn_b]. split; [|split; [exact I|split; [|split; [exact I|exact I]]]]; intros _.
  - split; [constructor; [intros [H|[]]; discriminate|constructor; [intros []|constructor]]|]. intros s _ H. exact H.
  - split; [constructor; [intros []|constructor]|]. cbn. intros s [<-|[]] [H|[H|[]]]; discriminate.
Qed.
Lemma markers_case : exists z, reached two_geoms [add_two; turn_b; add_one] z /\
  map (fun e => (fst e, mk_id (snd e))) (z_markers z) = [("a", 0); ("b", 1); ("c", 2)]%string%Z /\ z_n z = 3%Z /\ Forall (fun e => drawable (snd e)) (z_markers z) /\
  exists s, z_viewer z = Some s /\ List.length (sc_slots s) = 4 /\
  exists s' g, z_viewer (snd (viz_update two_geoms at34 z)) = Some s' /\ nth_error (sc_slots s') 1 = Some g /\ sl_pos g = [7; 8; 9]%R /\ nth_error (sc_slots s') 3 = Some empty_slot.
Proof.
  exists (vrun two_geoms [add_two; turn_b; add_one] viewer0). split.
  - exists 2, [0; 0]%R, (Some [empty_slot; empty_slot; empty_slot; empty_slot]), (Some [empty_slot; empty_slot; empty_slot]), "run"%string. split; [|reflexivity].
    pose proof history_fresh as H. change [add_two; turn_b; add_one; VUpdate at34] with ([add_two; turn_b; add_one] ++ [VUpdate at34]) in H.
    exact (proj1 (fresh_app _ _ _ _ H)).
  - split; [reflexivity|]. split; [reflexivity|]. split; [repeat constructor; eexists; reflexivity|].
    eexists. split; [reflexivity|]. split; [reflexivity|]. do 2 eexists. split; [reflexivity|]. split; [reflexivity|]. split; reflexivity.
Qed.
(** a is blue although the call asked for red first. *)
Lemma colours_case : exists ma mb mc, let z := vrun two_geoms [add_two; turn_b; add_one] viewer0 in
  assoc "a" (z_markers z) = Some ma /\ mk_rgba ma = [0; 0; 1; 1]%R /\ assoc "b" (z_markers z) = Some mb /\ mk_rgba mb = [1; 0; 0; 1]%R /\
  assoc "c" (z_markers z) = Some mc /\ mk_rgba mc = [1; 0; 0; 1]%R.
Proof.
  assert (F : fresh two_geoms ([] ++ add_two :: [turn_b; add_one; VUpdate at34]) viewer0) by exact history_fresh.
  do 3 eexists. split; [reflexivity|]. split; [|split; [reflexivity|]; split; [|split; [reflexivity|]]].
  - cbn. repeat (apply f_equal2; [field; lra|]). reflexivity.
  - cbn. repeat (apply f_equal2; [field; lra|]). reflexivity.
  - cbn. repeat (apply f_equal2; [try lra; field; lra|]). reflexivity.
Qed.
(** One marker, two geoms: the second geom of the recorded frame is the marker. *)
Lemma frame_case : let z := vrun two_geoms [add_one] viewer0 in exists z' g1 g2,
  viz_update two_geoms at34 z = (Ok tt, z') /\ z_frames z' = Some [[g1; g2]] /\ two_geoms (t_data at34) = [body_slot 3; body_slot 4] /\
  g1 = body_slot 3 /\ sl_type g2 = 3%Z /\ sl_type (body_slot 4) = 5%Z.
Proof. do 3 eexists. split; [reflexivity|]. split; [reflexivity|]. repeat split. Qed.
Lemma recording_case : let os := [VUpdate at34; VUpdate (mkT [1] [3]%R); add_one; VUpdate at34] in
  updates_done two_geoms os viewer0 = 2 /\ exists fr, save_video "now" 30 (vrun two_geoms os viewer0) = Ok (Some ("run.mp4"%string, fr, 30%R)) /\ List.length fr = 2.
Proof. split; [reflexivity|]. eexists. split; reflexivity. Qed.

(** A document with two instances. *)
Definition body (u : nat) (kids : list xml) : xml := El u "body" [] kids.
Definition leaf (u : nat) (t : string) : xml := El u t [] [].
Definition document : xml :=
  El 0 "mujoco" []
   [El 1 "asset" [] [El 2 "mesh" [("name", "m"); ("file", "part-0a1b.stl")]%string []; El 3 "texture" [("type", "skybox")]%string []];
    El 4 "worldbody" [] [leaf 5 "site"; body 6 [leaf 7 "light"; body 8 [leaf 9 "joint"; body 10 [leaf 11 "joint"]]]; leaf 12 "site"; body 13 [body 14 [leaf 15 "freejoint"]]]].
Lemma document_case : hoist_root document =
  El 0 "mujoco" []
   [El 1 "asset" [] [El 2 "mesh" [("name", "m"); ("file", "part-0a1b.stl")]%string []; El 3 "texture" [("type", "skybox")]%string []];
    El 4 "worldbody" [] [leaf 5 "site"; leaf 12 "site"; leaf 7 "light"; body 8 [leaf 9 "joint"; body 10 [leaf 11 "joint"]]; body 14 [leaf 15 "freejoint"]]] /\
  strip_hash "left-arm-0a1b.stl" = "left-arm.stl"%string.
Proof. split; reflexivity. Qed.
Lemma assets_case : exists root, remove_high_level_body_tags document [("/m", [("scene.xml", "<>")]); ("/m/assets", [("part.stl", "solid")])]%string
  = Ok (root, [("part.stl", "solid")]%string) /\ exists y, In y (descendants root) /\ is_asset y = true /\ file_of y = Some "part.stl"%string.
Proof. eexists. split; [reflexivity|]. exists (El 2 "mesh" [("name", "m"); ("file", "part.stl")]%string []). split; [right; left; reflexivity|]. split; reflexivity. Qed.
(** Two meshes of the same file name in two directories get one content. *)
Definition twin_files : xml :=
  El 0 "mujoco" [] [El 1 "asset" [] [El 2 "mesh" [("file", "part-aaaa.stl")]%string []; El 3 "mesh" [("file", "part-bbbb.stl")]%string []]].
Lemma twins_case : exists root, remove_high_level_body_tags twin_files [("/m/left", [("part.stl", "left part")]); ("/m/right", [("part.stl", "right part")])]%string
  = Ok (root, [("part.stl", "left part")]%string) /\ map file_of (descendants root) = [None; Some "part.stl"; Some "part.stl"]%string.
Proof. eexists. split; reflexivity. Qed.
Lemma layout_case : let kids := [leaf 5 "site"; body 6 [leaf 7 "light"; body 8 [leaf 9 "joint"; body 10 [leaf 11 "joint"]]]; leaf 12 "site"; body 13 [body 14 [leaf 15 "freejoint"]]] in
  NoDup (uids kids) /\ flat_map joints_in (hoist kids) = [9; 11; 15] /\
  (forall rows, rows = [[1; 2]; [3; 4]]%R -> exists z, viz_update two_geoms (mkT [2; 2] (List.concat rows)) (new_viz 4 [0; 0; 0; 0]%R None None "") = (Ok tt, z) /\ firstn 2 (skipn 2 (z_qpos z)) = [3; 4]%R).
Proof. split; [repeat constructor; cbn; intuition lia|]. split; [reflexivity|]. intros rows ->. eexists. split; reflexivity. Qed.

(** Class 0 has group 2 and a colour, used by two geoms; geom 2 is in group 3, geom 3
    has its own colour. *)
Definition classes : list gclass := [mkK (Some 2%Z) (Some (mkCol [1; 0; 0]%R 1))].
Definition geoms : list geom :=
  [mkG 0 None (Some 0) None 1 1; mkG 1 None (Some 0) None 1 1; mkG 2 (Some 3%Z) None None 1 1; mkG 3 None None (Some (mkCol [0; 1; 0]%R 1)) 1 1; mkG 4 None None None 1 1].
Lemma painting_case : let '(gs', ks') := paint_geoms 2 (1 / 2) classes geoms in
  map g_id gs' = [0; 1; 3; 4] /\ Forall (fun g => g_contype g = 0%Z) gs' /\
  map (fun g => option_map col_a (shown_color ks' g)) gs' = [Some (1 / 4); Some (1 / 4); Some (1 / 2); None]%R.
Proof. cbn. split; [reflexivity|]. split; [repeat constructor|]. repeat (f_equal; try lra). Qed.
Lemma sole_case : let ks := [mkK None (Some (mkCol [1; 0; 0]%R 1))] in let g := mkG 0 None (Some 0) None 1 1 in
  visible 2 ks g /\ shown_color ks g = Some (mkCol [1; 0; 0]%R 1) /\ borrowers 2 ks 0 [g; mkG 1 (Some 5%Z) (Some 0) None 1 1] = [g].
Proof. split; [intros x; discriminate|]. split; reflexivity. Qed.
