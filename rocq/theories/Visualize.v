(** mjinx/visualize.py.  The viewer, the renderer and dm_control are libraries:
    a scene is an array of geom slots with a count, the renderer fills it from the
    model, dm_control elements are records.  Colours and poses are exact reals. *)
From Coq Require Import Ascii.
From Verif Require Import Base Lin Rot Problem JaxTree.
Open Scope nat_scope.

(** ** Markers *)
(** visualize.py:21-41 *)
Record marker := mkMk { mk_name : string; mk_id : Z; mk_type : Z; mk_size : list R; mk_pos : list R; mk_rot : tensor; mk_rgba : list R }.
(** visualize.py:43-79; ravel of a 2-d array is its row-major data. *)
Definition rot_matrix (m : marker) : res (list R) :=
  match t_shape (mk_rot m) with
  | [_] => match t_data (mk_rot m) with
           | [w; x; y; z] => Ok
               [1 - 2 * (y * y) - 2 * (z * z); 2 * x * y - 2 * w * z; 2 * x * z + 2 * w * y;
                2 * x * y + 2 * w * z; 1 - 2 * (x * x) - 2 * (z * z); 2 * y * z - 2 * w * x;
                2 * x * z - 2 * w * y; 2 * y * z + 2 * w * x; 1 - 2 * (x * x) - 2 * (y * y)]%R
           | _ => Err ValueError
           end
  | [_; _] => Ok (t_data (mk_rot m))
  | _ => Err ValueError
  end.

(** What mjv_initGeom stores in a slot. *)
Record slot := mkSlot { sl_type : Z; sl_size : list R; sl_pos : list R; sl_mat : list R; sl_rgba : list R }.
(** An MjvScene: [maxgeom] slots, [ngeom] of them in use. *)
Record scene := mkScn { sc_slots : list slot; sc_ngeom : Z }.

Record viz := mkViz {
  z_nq : nat;                        (* mj_model.nq *)
  z_qpos : list R;                   (* mj_data.qpos *)
  z_viewer : option scene;           (* mj_viewer.user_scn, None without passive viewer *)
  z_renderer : option scene;         (* mj_renderer.scene, None unless record *)
  z_n : Z;                           (* n_markers *)
  z_markers : list (string * marker);
  z_frames : option (list (list slot));   (* None: deleted by close *)
  z_filename : string }.

(** visualize.py:99-137, after the model has been generated. *)
Definition new_viz (nq : nat) (qpos0 : list R) (viewer_slots renderer_slots : option (list slot)) (filename : string) : viz :=
  mkViz nq qpos0 (option_map (fun s => mkScn s 0) viewer_slots) (option_map (fun s => mkScn s 0) renderer_slots) 0 [] (Some []) filename.

Inductive names := NStr (s : string) | NList (l : list string).
Inductive sizes := SzFloat (x : R) | SzArr (l : list R).
(** np.linspace(0, 1, n): ValueError for negative n. *)
Definition linspace01 (n : Z) : res (list R) :=
  if (n <? 0)%Z then Err ValueError
  else Ok (map (fun i => if (n =? 1)%Z then 0%R else (INR i / IZR (n - 1))%R) (seq 0 (Z.to_nat n))).
Definition np_add (a b : list R) : res (list R) := match bc2 Rplus a b with Ok x => Ok x | Err _ => Err ValueError end.

(** visualize.py:333-344: one pass per marker; earlier markers stay if a later one
    raises. *)
Fixpoint marker_loop (name : names) (size : list R) (alpha : R) (cb ce : list R) (ty base : Z) (i : nat) (coefs : list R) (d : list (string * marker))
  : res unit * list (string * marker) :=
  match coefs with
  | [] => (Ok tt, d)
  | c :: r =>
      match (match name with NStr s => Ok s | NList l => np_idx l (Z.of_nat i) end) with
      | Err e => (Err e, d)
      | Ok n =>
          match np_add (vscale c cb) (vscale (1 - c) ce) with
          | Err e => (Err e, d)
          | Ok color =>
              marker_loop name size alpha cb ce ty base (S i) r
                (dict_set n (mkMk n (base + Z.of_nat i) ty size (vzero 3) (mkT [4] [1; 0; 0; 0]%R) (color ++ [alpha])) d)
          end
      end
  end.
Definition add_ngeom (n : Z) (s : scene) : scene := mkScn (sc_slots s) (sc_ngeom s + n).
(** visualize.py:304-349 *)
Definition add_markers (name : names) (size : sizes) (alpha : R) (cb : list R) (ce : option (list R)) (ty n : Z) (z : viz) : res unit * viz :=
  let bad := match name with NStr _ => true | NList l => negb (Z.of_nat (List.length l) =? n)%Z end in
  if ((1 <? n)%Z && bad)%bool then (Err ValueError, z)
  else
    let ce' := match ce with Some c => c | None => cb end in
    let sz := match size with SzFloat x => vconst 3 x | SzArr l => l end in
    match linspace01 n with
    | Err e => (Err e, z)
    | Ok coefs =>
        match marker_loop name sz alpha cb ce' ty (z_n z) 0 coefs (z_markers z) with
        | (Err e, d) => (Err e, mkViz (z_nq z) (z_qpos z) (z_viewer z) (z_renderer z) (z_n z) d (z_frames z) (z_filename z))
        | (Ok _, d) => (Ok tt, mkViz (z_nq z) (z_qpos z) (option_map (add_ngeom n) (z_viewer z)) (option_map (add_ngeom n) (z_renderer z)) (z_n z + n) d (z_frames z) (z_filename z))
        end
    end.

(** User code moves a marker: [viz.marker_data[name].pos = ...; .rot = ...]. *)
Definition move_marker (name : string) (pos : list R) (rot : tensor) (z : viz) : res unit * viz :=
  match assoc name (z_markers z) with
  | None => (Err KeyError, z)
  | Some m => (Ok tt, mkViz (z_nq z) (z_qpos z) (z_viewer z) (z_renderer z) (z_n z)
        (dict_set name (mkMk (mk_name m) (mk_id m) (mk_type m) (mk_size m) pos rot (mk_rgba m)) (z_markers z)) (z_frames z) (z_filename z))
  end.

(** [l[i] = v] on a Python sequence. *)
Definition py_set {A} (l : list A) (i : Z) (v : A) : res (list A) :=
  let n := Z.of_nat (List.length l) in
  let j := if (i <? 0)%Z then (i + n)%Z else i in
  if ((j <? 0) || (n <=? j))%Z then Err IndexError
  else Ok (firstn (Z.to_nat j) l ++ v :: skipn (S (Z.to_nat j)) l).
(** mjv_initGeom checks the sizes of its array arguments. *)
Definition init_geom (m : marker) : res slot :=
  do M <- rot_matrix m;
  if (Nat.eqb (List.length (mk_size m)) 3 && Nat.eqb (List.length (mk_pos m)) 3 && Nat.eqb (List.length M) 9 && Nat.eqb (List.length (mk_rgba m)) 4)%bool
  then Ok (mkSlot (mk_type m) (mk_size m) (mk_pos m) M (mk_rgba m)) else Err TypeError.
(** visualize.py:387-402 *)
Fixpoint draw_markers (n : Z) (ms : list (string * marker)) (s : scene) : res unit * scene :=
  match ms with
  | [] => (Ok tt, s)
  | (_, m) :: r =>
      match np_idx (sc_slots s) (sc_ngeom s - n + mk_id m) with
      | Err e => (Err e, s)
      | Ok _ =>
          match init_geom m with
          | Err e => (Err e, s)
          | Ok g => match py_set (sc_slots s) (sc_ngeom s - n + mk_id m) g with
                    | Err e => (Err e, s)
                    | Ok sl => draw_markers n r (mkScn sl (sc_ngeom s))
                    end
          end
      end
  end.

(** Renderer.update_scene: the geoms of the model at this configuration come first,
    and [ngeom] is their number. *)
Definition update_scene (geoms : list slot) (s : scene) : scene :=
  mkScn (geoms ++ skipn (List.length geoms) (sc_slots s)) (Z.of_nat (List.length geoms)).
(** What is rendered. *)
Definition render (s : scene) : list slot := firstn (Z.to_nat (sc_ngeom s)) (sc_slots s).

(** visualize.py:360-385; [geoms_at] gives the scene geoms of the model at a
    configuration.  Assigning qpos needs exactly nq numbers. *)
Definition viz_update (geoms_at : list R -> list slot) (q : tensor) (z : viz) : res unit * viz :=
  if negb (Nat.eqb (List.length (t_data q)) (z_nq z)) then (Err ValueError, z)
  else
    let z1 := mkViz (z_nq z) (t_data q) (z_viewer z) (z_renderer z) (z_n z) (z_markers z) (z_frames z) (z_filename z) in
    let '(r1, v1) := match z_viewer z with
                     | None => (Ok tt, None)
                     | Some s => let '(r, s') := draw_markers (z_n z) (z_markers z) s in (r, Some s')
                     end in
    let z2 := mkViz (z_nq z1) (z_qpos z1) v1 (z_renderer z1) (z_n z1) (z_markers z1) (z_frames z1) (z_filename z1) in
    match r1 with
    | Err e => (Err e, z2)
    | Ok _ =>
        match z_renderer z with
        | None => (Ok tt, z2)
        | Some s =>
            let '(r2, s') := draw_markers (z_n z) (z_markers z) (update_scene (geoms_at (t_data q)) s) in
            match r2, z_frames z with
            | Err e, _ => (Err e, mkViz (z_nq z2) (z_qpos z2) (z_viewer z2) (Some s') (z_n z2) (z_markers z2) (z_frames z2) (z_filename z2))
            | Ok _, None => (Err AttributeError, mkViz (z_nq z2) (z_qpos z2) (z_viewer z2) (Some s') (z_n z2) (z_markers z2) None (z_filename z2))
            | Ok _, Some fr => (Ok tt, mkViz (z_nq z2) (z_qpos z2) (z_viewer z2) (Some s') (z_n z2) (z_markers z2) (Some (fr ++ [render s'])) (z_filename z2))
            end
        end
    end.

(** visualize.py:404-423: the file written, if any; [stamp] is the date. *)
Definition save_video (stamp : string) (fps : R) (z : viz) : res (option (string * list (list slot) * R)) :=
  match z_renderer z with
  | None => Ok None
  | Some _ => match z_frames z with
              | None => Err AttributeError
              | Some fr => Ok (Some ((if Nat.eqb (String.length (z_filename z)) 0 then String.append stamp ".mp4" else String.append (z_filename z) ".mp4"), fr, fps))
              end
  end.
(** visualize.py:425-433 *)
Definition close (z : viz) : viz :=
  match z_renderer z with
  | None => z
  | Some _ => mkViz (z_nq z) (z_qpos z) (z_viewer z) (z_renderer z) (z_n z) (z_markers z) None (z_filename z)
  end.

(** ** The combined model *)
(** An XML element; [uid] is the identity of the Python object. *)
Inductive xml := El (uid : nat) (tag : string) (attrs : list (string * string)) (kids : list xml).
Definition x_uid (x : xml) := let 'El u _ _ _ := x in u.
Definition x_tag (x : xml) := let 'El _ t _ _ := x in t.
Definition x_attrs (x : xml) := let 'El _ _ a _ := x in a.
Definition x_kids (x : xml) := let 'El _ _ _ k := x in k.

(** [list.remove] of an element object. *)
Fixpoint remove_child (u : nat) (l : list xml) : list xml :=
  match l with [] => [] | x :: r => if Nat.eqb (x_uid x) u then r else x :: remove_child u r end.
(** visualize.py:178-184 on the children of worldbody *)
Definition hoist (kids : list xml) : list xml :=
  fold_left (fun cur child => if String.eqb (x_tag child) "body" then remove_child (x_uid child) (cur ++ x_kids child) else cur) kids kids.
(** [root.find(".//t")] and in-place edit of the children of the element found:
    the first descendant of root with tag [t], in document order. *)
Fixpoint edit_first (t : string) (f : list xml -> list xml) (x : xml) : option xml :=
  match x with
  | El u g a ks =>
      if String.eqb g t then Some (El u g a (f ks))
      else option_map (El u g a)
        ((fix go (l : list xml) : option (list xml) :=
            match l with
            | [] => None
            | y :: r => match edit_first t f y with Some y' => Some (y' :: r) | None => option_map (cons y) (go r) end
            end) ks)
  end.
Fixpoint edit_list (t : string) (f : list xml -> list xml) (l : list xml) : option (list xml) :=
  match l with
  | [] => None
  | y :: r => match edit_first t f y with Some y' => Some (y' :: r) | None => option_map (cons y) (edit_list t f r) end
  end.
Definition hoist_root (root : xml) : xml :=
  let 'El u g a ks := root in
  match edit_list "worldbody" hoist ks with Some ks' => El u g a ks' | None => root end.

(** Python string slices and rfind. *)
Fixpoint rfind_from (c : ascii) (s : string) (i : Z) (acc : Z) : Z :=
  match s with EmptyString => acc | String a r => rfind_from c r (i + 1)%Z (if Ascii.eqb a c then i else acc) end.
Definition rfind (c : ascii) (s : string) : Z := rfind_from c s 0 (-1).
Definition clip_index (s : string) (i : Z) : nat :=
  let n := Z.of_nat (String.length s) in Z.to_nat (Z.max 0 (Z.min n (if (i <? 0)%Z then (i + n)%Z else i))).
Definition slice_to (s : string) (i : Z) : string := substring 0 (clip_index s i) s.
Definition slice_from (s : string) (i : Z) : string := substring (clip_index s i) (String.length s - clip_index s i) s.
(** visualize.py:193 *)
Definition strip_hash (f : string) : string := String.append (slice_to f (rfind "-"%char f)) (slice_from f (rfind "."%char f)).
(** visualize.py:139-152 and the read at 196-197: [dirs] is what os.walk yields,
    directories with their files and contents. *)
Fixpoint find_asset (dirs : list (string * list (string * string))) (name : string) : res string :=
  match dirs with
  | [] => Err ValueError
  | (_, files) :: r => match assoc name files with Some c => Ok c | None => find_asset r name end
  end.
(** All descendants in document order: [root.iter()] without root. *)
Fixpoint descendants (x : xml) : list xml :=
  match x with El _ _ _ ks => flat_map (fun y => y :: descendants y) ks end.
Definition file_of (x : xml) : option string :=
  match assoc "file"%string (x_attrs x) with Some f => if String.eqb f "" then None else Some f | None => None end.
Definition is_asset (x : xml) : bool := (String.eqb (x_tag x) "mesh" || String.eqb (x_tag x) "texture")%bool.
(** visualize.py:186-199: the assets, and the renamed file attributes. *)
Fixpoint load_assets (dirs : list (string * list (string * string))) (els : list xml) (acc : list (string * string)) : res (list (string * string)) :=
  match els with
  | [] => Ok acc
  | x :: r => match file_of x with
              | None => load_assets dirs r acc
              | Some f => do c <- find_asset dirs (strip_hash f); load_assets dirs r (dict_set (strip_hash f) c acc)
              end
  end.
Fixpoint rename_files (x : xml) : xml :=
  match x with
  | El u t a ks =>
      El u t (if is_asset x then match file_of x with Some f => dict_set "file"%string (strip_hash f) a | None => a end else a) (map rename_files ks)
  end.
(** visualize.py:154-203 without parsing and printing; the root itself is not a mesh. *)
Definition remove_high_level_body_tags (root : xml) (dirs : list (string * list (string * string))) : res (xml * list (string * string)) :=
  let root' := hoist_root root in
  let els := filter (fun x => String.eqb (x_tag x) "mesh") (descendants root') ++ filter (fun x => String.eqb (x_tag x) "texture") (descendants root') in
  do assets <- load_assets dirs els [];
  let 'El u t a ks := root' in Ok (El u t a (map rename_files ks), assets).

(** visualize.py:351-358 *)
Fixpoint dec_digits (fuel n : nat) (acc : string) : string :=
  match fuel with
  | O => acc
  | S f => let acc' := String (ascii_of_nat (48 + n mod 10)) acc in if Nat.ltb n 10 then acc' else dec_digits f (n / 10) acc'
  end.
Definition dec (n : nat) : string := dec_digits (S n) n "".
Definition get_prefix (i : nat) : string := String.append "manip" (dec i).

(** ** Colours and groups: visualize.py:253-285.  [color]: rgb and alpha; a geom may
    name a default class by index; materials and classes are shared objects. *)
Record color := mkCol { col_rgb : list R; col_a : R }.
Record gclass := mkK { k_group : option Z; k_rgba : option color }.
Record geom := mkG { g_id : nat; g_group : option Z; g_class : option nat; g_rgba : option color; g_contype : Z; g_conaffinity : Z }.
Definition fade (alpha : R) (c : color) : color := mkCol (col_rgb c) (col_a c * alpha).
(** 253-258 *)
Definition paint_material (alpha : R) (m : option color) : option color :=
  match m with Some c => Some (fade alpha c) | None => Some (mkCol [1; 1; 1]%R alpha) end.
(** 268-269 *)
Definition geom_group_of (ks : list gclass) (g : geom) : option Z :=
  match g_group g with
  | Some x => Some x
  | None => match g_class g with Some k => match nth_error ks k with Some c => k_group c | None => None end | None => None end
  end.
Fixpoint update_class (k : nat) (f : gclass -> gclass) (ks : list gclass) : list gclass :=
  match ks, k with [], _ => [] | c :: r, O => f c :: r | c :: r, S k' => c :: update_class k' f r end.
(** 261-285: the loop over all geoms *)
Fixpoint paint_geoms (gg : Z) (alpha : R) (ks : list gclass) (gs : list geom) : list geom * list gclass :=
  match gs with
  | [] => ([], ks)
  | g :: r =>
      let drop := match geom_group_of ks g with Some x => negb (x =? gg)%Z | None => false end in
      if drop then paint_geoms gg alpha ks r
      else
        let ks' := match g_rgba g, g_class g with
                   | None, Some k => match nth_error ks k with
                                     | Some c => match k_rgba c with
                                                 | Some col => update_class k (fun c => mkK (k_group c) (Some (fade alpha col))) ks
                                                 | None => ks end
                                     | None => ks end
                   | _, _ => ks end in
        let g' := mkG (g_id g) (g_group g) (g_class g) (option_map (fade alpha) (g_rgba g)) 0 0 in
        let '(gs', ks'') := paint_geoms gg alpha ks' r in (g' :: gs', ks'')
  end.
