(** Scenes and the output of the backends for plots: models /repo/marxs/visualization/x3d.py:78-248, 284-386, /repo/marxs/visualization/mayavi.py:158-180,
    /repo/marxs/visualization/threejs.py:40-43, 94-268, /repo/marxs/visualization/threejsjson.py:101-196,
    /repo/marxs/visualization/threejs_files/MARXSloader.js:60-74 and /repo/marxs/visualization/threejs_files/jsonschema.json:103-162.
    The geometry of an element is the list of points that it gives for a shape. Of a display dictionary the shape, the color and the opacity are kept.
    The libraries (x3d, mayavi, matplotlib's color maps, three.js) are left out: a scene is the list of what was added to it. *)
From Coq Require Import Ascii.
From Verif Require Export Viz_Model Detector_Model.
Open Scope R_scope.

(** ** X3D *)
(** [np.round(x, d)] *)
Definition round_to (d : nat) (x : R) : R := IZR (Rround (x * 10 ^ d)) / 10 ^ d.
(** x3d.py:218-221 [_format_points]; [prec]: conf.xyz_precision *)
Definition format_points (prec : nat) (pts : list v3) : list v3 :=
  map (fun p => V3 (round_to (prec + 3) (x3 p / 1000)) (round_to (prec + 3) (y3 p / 1000)) (round_to (prec + 3) (z3 p / 1000))) pts.
(** what is added to a scene: shape, color, transparency, points *)
Record node := Node { n_shape : string; n_color : list cval; n_transp : R; n_points : list v3 }.
Record disp := Disp { d_shape : option string; d_color : option colorspec; d_opacity : option R }.
(** [o_points]: the points for a shape; [o_elements]: [None] without attribute [elements] *)
Inductive obj := Obj (o_display : option disp) (o_points : string -> result (list v3)) (o_elements : option (list obj)).
(** x3d.py:460-464 *)
Definition x3d_registry : list string := ["triangulation"; "box"; "container"; "surface"]%string.
(** x3d.py:211-215 [_diffuse_material] *)
Definition transparency (d : disp) : R := 1 - match d_opacity d with Some o => o | None => 1 end.
Section X3d.
Context (to_rgb : colorspec -> result (list cval)) (prec : nat).
(** x3d.py:358-386 [plot_object], 349-355 [container], 284-347 [triangulation] and [box], 250-281 [surface], utils.py:102-131: the scene afterwards and the exception *)
Fixpoint x3d_plot (o : obj) (display : option disp) (scene : list node) {struct o} : list node * option err :=
  match o with
  | Obj od points elements =>
      match (match display with Some d => Some d | None => od end) with
      | None => (scene, None)
      | Some d =>
          match d_shape d with
          | None => (scene, None)
          | Some shape =>
              match dispatch x3d_registry (shapes_of shape) with
              | Hidden | Warned => (scene, None)
              | Plotted s =>
                  match get_color to_rgb (d_color d) with
                  | Err e => (scene, Some e)
                  | Ok c =>
                      if String.eqb s "container" then
                        match elements with
                        | None => (scene, Some AttributeError)
                        | Some l =>
                            (fix go (l : list obj) (scene : list node) : list node * option err :=
                               match l with
                               | [] => (scene, None)
                               | e :: r => match x3d_plot e None scene with (sc, None) => go r sc | (sc, Some x) => (sc, Some x) end
                               end) l scene
                        end
                      else match points s with Err e => (scene, Some e) | Ok p => (scene ++ [Node s c (transparency d) (format_points prec p)], None) end
                  end
              end
          end
      end
  end.
(** x3d.py:202-208 [empty_scene] and the value that is returned *)
Definition plot_object (o : obj) (display : option disp) (scene : option (list node)) : result (option (list node)) :=
  match x3d_plot o display (match scene with Some s => s | None => [] end) with (sc, None) => Ok (Some sc) | (_, Some e) => Err e end.
(** the functions [box], [surface], [indexed_triangle_set] and [triangulation] when they are called by the user; the first three have no return statement *)
Definition plot_shape (s : string) (o : obj) (d : disp) (c : list cval) (scene : option (list node)) : list node * result (option (list node)) :=
  match o with
  | Obj _ points _ =>
      let old := match scene with Some s => s | None => [] end in
      match points s with
      | Err e => (old, Err e)
      | Ok p => let new := old ++ [Node s c (transparency d) (format_points prec p)] in (new, Ok (if String.eqb s "triangulation" then Some new else None))
      end
  end.
End X3d.
(** Spec: what is drawn for an element *)
Inductive appears (to_rgb : colorspec -> result (list cval)) (prec : nat) : node -> obj -> option disp -> Prop :=
| App_shape od points els display d shape s c p :
    match display with Some x => Some x | None => od end = Some d -> d_shape d = Some shape -> dispatch x3d_registry (shapes_of shape) = Plotted s ->
    s <> "container"%string -> get_color to_rgb (d_color d) = Ok c -> points s = Ok p ->
    appears to_rgb prec (Node s c (transparency d) (format_points prec p)) (Obj od points els) display
| App_inside od points els display d shape e n :
    match display with Some x => Some x | None => od end = Some d -> d_shape d = Some shape -> dispatch x3d_registry (shapes_of shape) = Plotted "container" ->
    In e els -> appears to_rgb prec n e None -> appears to_rgb prec n (Obj od points (Some els)) display.

(** ** The page around a scene *)
Record page := Page { js : string; css : string; impl : string }.
(** x3d.py:87-102 [set_X3D_implementation] *)
Definition set_implementation (name : string) (p : page) : result page :=
  if String.eqb name "X3DOM" then Ok (Page "https://www.x3dom.org/download/x3dom.js" "https://www.x3dom.org/download/x3dom.css" name)
  else if String.eqb name "X_ITE" then Ok (Page "https://cdn.jsdelivr.net/npm/x_ite@9.7.0/dist/x_ite.min.js" "" name)
  else Err ValueError.
(** [os.path.basename]: the text behind the last slash *)
Fixpoint basename_aux (cur : string) (s : string) : string :=
  match s with EmptyString => cur | String c r => if Ascii.eqb c "/" then basename_aux r r else basename_aux cur r end.
Definition basename (s : string) : string := basename_aux s s.
(** x3d.py:161-199 [write_html_archive]: the page afterwards, the names of the files in the archive and the page that is written (from [html]).
    [fetch]: does the download work? *)
Definition write_html_archive {H} (fetch : string -> bool) (html : page -> result H) (p : page) : page * result (list string * H) :=
  let sources := filter (fun f => negb (String.eqb f "")) [js p; css p] in
  if negb (forallb fetch sources) then (p, Err Exception) else
  let inner := Page (basename (js p)) (basename (css p)) (impl p) in
  match html inner with
  | Ok h => (p, Ok (map basename sources ++ ["figure.html"%string], h))
  | Err e => (p, Err e)
  end.
(** x3d.py:107-156: the files that the page asks for *)
Definition asks_for (p : page) : list string := if String.eqb (impl p) "X3DOM" then [js p; css p] else [js p].

(** ** Rays *)
(** mayavi.py:163-172: one value for each point, [n] rays with [N] points *)
Definition mayavi_scalars (n N : nat) (s : scalars) : result (list R) :=
  match s with
  | NoScalar => Ok (repeat 0 (n * N))
  | PerRay l => if Nat.eqb (length l) n then Ok (flat_map (fun x => repeat x N) l) else Err ValueError
  | PerPoint l => if (Nat.eqb (length l) n && forallb (fun r => Nat.eqb (length r) N) l)%bool then Ok (concat l) else Err ValueError
  end.
(** mayavi.py:178-180: the connections; [reshape((-1, 0))] is an error *)
Definition connections (n N : nat) : result (list (nat * nat)) :=
  if Nat.eqb N 0 then Err ValueError else Ok (map (fun a => (a, a + 1)%nat) (flat_map (fun i => map (fun j => i * N + j)%nat (seq 0 (N - 1))) (seq 0 n))).
(** threejs.py:94-109 [_format_plot_rays_input]: one value for each point of each ray *)
Definition ray_table (n N : nat) (s : scalars) : result (list (list R)) :=
  match s with
  | NoScalar => Ok (repeat (repeat 0 N) n)
  | PerRay l => if Nat.eqb (length l) n then Ok (map (fun x => repeat x N) l) else Err ValueError
  | PerPoint l => if (Nat.eqb (length l) n && forallb (fun r => Nat.eqb (length r) N) l)%bool then Ok l else Err ValueError
  end.
(** threejs.py:110-117: [vertexColors] is added to the dictionary of the caller, which may be the one default of all calls *)
Definition with_vertex_colors {V} (two : V) (prop : dict V) : dict V := if din "vertexColors" prop then prop else dset "vertexColors" two prop.
(** threejsjson.py:162-196 [plot_rays]: positions and colors of each ray; [cmap]: color map after normalization, for the table of all values *)
Record rays := Rays { r_n : nat; r_pos : list (list R); r_color : list (list R); r_prop : dict nat }.
Definition json_rays (cmap : R -> R * R * R * R) (normalize : list (list R) -> R -> R) (data : list (list v3)) (N : nat) (s : scalars) (prop : dict nat) : result rays :=
  bind (ray_table (length data) N s) (fun t =>
  Ok (Rays (length data) (map (flat_map (fun p => [x3 p; y3 p; z3 p])) data)
           (map (flat_map (fun v => let '(r, g, b, _) := cmap (normalize t v) in [r; g; b])) t) (with_vertex_colors 2%nat prop))).
(** jsonschema.json:124-149 for positions and colors: not empty, three numbers at least in each list *)
Definition schema_lists (l : list (list R)) : bool := (negb (Nat.eqb (length l) 0) && forallb (fun r => Nat.leb 3 (length r)) l)%bool.
Definition schema_rays (r : rays) : bool := (schema_lists (r_pos r) && schema_lists (r_color r))%bool.

(** ** three.js *)
(** [M.flatten()]: row after row *)
Definition flatten4 (m : m4) : list R :=
  [x4 (b0 m); x4 (b1 m); x4 (b2 m); x4 (b3 m); y4 (b0 m); y4 (b1 m); y4 (b2 m); y4 (b3 m);
   z4 (b0 m); z4 (b1 m); z4 (b2 m); z4 (b3 m); w4 (b0 m); w4 (b1 m); w4 (b2 m); w4 (b3 m)].
(** [M.T] *)
Definition trans4 (m : m4) : m4 :=
  M4 (V4 (x4 (b0 m)) (x4 (b1 m)) (x4 (b2 m)) (x4 (b3 m))) (V4 (y4 (b0 m)) (y4 (b1 m)) (y4 (b2 m)) (y4 (b3 m)))
     (V4 (z4 (b0 m)) (z4 (b1 m)) (z4 (b2 m)) (z4 (b3 m))) (V4 (w4 (b0 m)) (w4 (b1 m)) (w4 (b2 m)) (w4 (b3 m))).
(** threejsjson.py:110 [box] *)
Definition json_box_pos4d (pos4d : m4) : list R := flatten4 (trans4 pos4d).
(** threejsjson.py:154 [torus] *)
Definition json_torus_pos4d (pos4d : m4) : list R := flatten4 pos4d.
(** MARXSloader.js:68-69: the numbers become the elements of the matrix of the mesh, which three.js keeps column after column *)
Definition loader (l : list R) : option m4 :=
  match l with
  | [a; b; c; d; e; f; g; h; i; j; k; l; m; n; o; p] => Some (M4 (V4 a b c d) (V4 e f g h) (V4 i j k l) (V4 m n o p))
  | _ => None
  end.
(** threejs.py:173-184 [plot_object]: the arguments by name; [obj], [display] and [outfile] are bound to the parameters, only the rest is in kwargs *)
Definition threejs_plot_object {V A} (general : dict V -> result A) (given : dict V) : result A :=
  if negb (forallb (fun k => din k given) ["obj"; "display"; "outfile"]%string) then Err TypeError else
  let kwargs := ddel "obj" (ddel "display" (ddel "outfile" given)) in
  if negb (din "outfile" kwargs) then Err TypeError else general kwargs.
(** threejs.py:142 [plot_rays]: uses a name that does not exist *)
Definition threejs_plot_rays {A} (data : list A) : result (list A) := Err NameError.
(** threejs.py:198-200 [box]: the parameter is called [obs] *)
Definition threejs_box (o : obj) : result string := Err NameError.
(** threejs.py:214-217, 241-250 [triangulation], [torus]: [materialspec] is assigned in the function *)
Definition threejs_triangulation (o : obj) : result string :=
  match o with Obj _ points _ => bind (points "triangulation"%string) (fun _ => Err UnboundLocalError) end.
Definition threejs_torus (o : obj) : result string := Err UnboundLocalError.
