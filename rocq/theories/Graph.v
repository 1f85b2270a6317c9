(** Model of graphs/draw.py, graphs/colours.py, graphs/entities.py, graphs/animation.py and graphs/backends/json_backend.py.
    The sizes given to a renderer are integers (pixels), as its documentation says. *)
From Coq Require Import NArith String Reals.
From Verif Require Import Base Num Sparse Spec Dataset Iterators Algorithms Results PyStr Client.

(** ** Entities (graphs/entities.py:1-49) *)
Section Entities.
  Context {F : Num}.
  (** an RGB(A) tuple *)
  Definition colour := list F.
  Record label := Label { l_x : F; l_y : F; l_colour : colour; l_text : pystr; l_size : F; l_overflow : colour }.
  Inductive entity :=
  | Rectangle (x y : F) (c : colour) (width height : F)
  | Circle (x y : F) (c : colour) (radius : F) (lab : option label)
  | Line (x y : F) (c : colour) (end_x end_y width : F) (dashed : bool).
End Entities.
Arguments colour : clear implicits. Arguments label : clear implicits. Arguments entity : clear implicits.

(** ** JSON (graphs/backends/json_backend.py) *)
Section Json.
  Context {F : Num}.
  (** The Python objects that occur as attributes of an entity: the entity's class name and __dict__ items (in the order in
      which __init__ assigns them), numbers, strings, booleans, tuples of numbers, None. *)
  Inductive pyval :=
  | YNone | YNum (x : F) | YBool (b : bool) | YStr (s : pystr) | YTuple (l : list F)
  | YEntity (cls : pystr) (attrs : list (pystr * pyval)).
  (** what json.dump is given: an object in which a dict replaces every entity *)
  Inductive json :=
  | JNull | JNum (x : F) | JBool (b : bool) | JStr (s : pystr) | JArr (l : list F)
  | JObj (items : dict pystr json).
  (** str.lower on ASCII class names *)
  Definition lower (s : pystr) : pystr := map (fun c => if ((65 <=? c) && (c <=? 90))%N then (c + 32)%N else c) s.
  (** JsonBackend.entity_to_dict (json_backend.py:18-30) *)
  Fixpoint entity_to_dict (v : pyval) : json :=
    match v with
    | YNone => JNull | YNum x => JNum x | YBool b => JBool b | YStr s => JStr s | YTuple l => JArr l
    | YEntity cls attrs =>
        JObj (fold_left (fun obj nv => dset obj (fst nv) (snd nv)) (map (fun nv => (fst nv, entity_to_dict (snd nv))) attrs) [(lit_str "type", JStr (lower cls))])
    end.
  (** an entity as a Python object: Entity.__init__ assigns x, y, colour, then the class' own __init__ assigns the rest
      (entities.py:5-49) *)
  Definition py_label (l : label F) : pyval :=
    YEntity (lit_str "Label") [(lit_str "x", YNum (l_x l)); (lit_str "y", YNum (l_y l)); (lit_str "colour", YTuple (l_colour l));
      (lit_str "text", YStr (l_text l)); (lit_str "size", YNum (l_size l)); (lit_str "overflow_background", YTuple (l_overflow l))].
  Definition py_entity (e : entity F) : pyval :=
    match e with
    | Rectangle x y c w h => YEntity (lit_str "Rectangle") [(lit_str "x", YNum x); (lit_str "y", YNum y); (lit_str "colour", YTuple c); (lit_str "width", YNum w); (lit_str "height", YNum h)]
    | Circle x y c r l => YEntity (lit_str "Circle") [(lit_str "x", YNum x); (lit_str "y", YNum y); (lit_str "colour", YTuple c); (lit_str "radius", YNum r);
        (lit_str "label", match l with Some l => py_label l | None => YNone end)]
    | Line x y c ex ey w b => YEntity (lit_str "Line") [(lit_str "x", YNum x); (lit_str "y", YNum y); (lit_str "colour", YTuple c); (lit_str "end_x", YNum ex); (lit_str "end_y", YNum ey);
        (lit_str "width", YNum w); (lit_str "dashed", YBool b)]
    end.
End Json.
Arguments pyval : clear implicits. Arguments json : clear implicits.

(** Exceptions *)
Inductive gerr :=
| GKeyError        (* a dict or bidict lookup *)
| GIntOfNaN        (* ValueError of int(nan), colours.py:86 *)
| GIntOfInf        (* OverflowError of int(inf), colours.py:86 *)
| GIndexError      (* COLOURS[index], colours.py:88 *)
| GUnpack          (* ValueError of "var, val = hints", colours.py:101 *)
| GZeroDivision    (* ZeroDivisionError of i / num_iterations, animation.py:62 *)
| GAlgorithm (e : aerr).   (* raised by run_iter *)

(** ** Colours (graphs/colours.py) *)
Section Colours.
  Context {S V W : Type} {ES : Eqb S} {EV : Eqb V} {EW : Eqb W} {F : Num}.
  (** [src_tuple s] is None if the source label s is not a tuple, Some None if it is a tuple not of length 2, and
      Some (Some (a, b)) if it is the pair (a, b). *)
  Variable src_tuple : S -> option (option (V * W)).

  (** NodeType, with the hints given for each (colours.py:4-7, draw.py:172-196) *)
  Inductive node := NSource (s : S) | NClaim (x : V) (w : W) | NVariable (x : V).

  Inductive scheme :=
  | DefaultScheme                                  (* GraphColourScheme *)
  | GradientScheme (results : result S V W F)      (* ResultsGradientColourScheme(results) *)
  | PlainScheme.                                   (* PlainColourScheme *)

  Definition rgb (a b c d : Z) : colour F := [lit a d; lit b d; lit c d].
  Definition white : colour F := [n_ofZ 1; n_ofZ 1; n_ofZ 1].
  Definition black : colour F := [n_ofZ 0; n_ofZ 0; n_ofZ 0].
  (** GraphColourScheme.get_node_colour (colours.py:14-33) *)
  Definition default_node_colour (n : node) : colour F * colour F * colour F :=
    (match n with NSource _ => rgb 133 400 400 1000 | NClaim _ _ => rgb 478 624 208 1000 | NVariable _ => rgb 667 224 224 1000 end,
     white, rgb 15 15 15 100).
  (** COLOURS (colours.py:58-71).  The literals of the source are the correctly rounded quotients k/255. *)
  Definition COLOURS : list (colour F) :=
    [rgb 247 252 245 255; rgb 229 245 224 255; rgb 199 233 192 255; rgb 161 217 155 255; rgb 116 196 118 255; rgb 65 171 93 255;
     rgb 35 139 69 255; rgb 0 109 44 255; rgb 0 68 27 255].
  (** l[i] for a Python list: negative indices count from the end *)
  Definition py_index {A} (l : list A) (i : Z) : option A :=
    if (i <? 0)%Z then (if (i <? - Z.of_nat (length l))%Z then None else nth_error l (Z.to_nat (i + Z.of_nat (length l)))) else nth_error l (Z.to_nat i).
  (** get_graded_colours (colours.py:79-88) *)
  Definition get_graded_colours (level : F) : res gerr (colour F * colour F) :=
    let scaled := n_mul level (n_ofZ 9) in
    match n_trunc scaled with
    | None => Err (if n_eqb scaled scaled then GIntOfInf else GIntOfNaN)
    | Some k =>
        let index := Z.min k 8 in
        let label_colour := if n_ltb level (lit 1 2) then black else white in
        match py_index COLOURS index with Some c => Ok (c, label_colour) | None => Err GIndexError end
    end.
  Definition belief_level (r : result S V W F) (x : V) (w : W) : res gerr F :=
    b <- of_opt GKeyError (dget (r_belief r) x) ;; of_opt GKeyError (dget b w).
  (** get_node_colour of the three schemes (colours.py:14-33, 90-108, 118-119) *)
  Definition get_node_colour (sch : scheme) (n : node) : res gerr (colour F * colour F * colour F) :=
    match sch with
    | DefaultScheme => Ok (default_node_colour n)
    | PlainScheme => Ok (white, black, black)
    | GradientScheme r =>
        match n with
        | NVariable _ => Ok (default_node_colour n)
        | _ =>
            level <- match n with
                     | NClaim x w => belief_level r x w
                     | NSource s =>
                         match src_tuple s with
                         | None => of_opt GKeyError (dget (r_trust r) s)
                         | Some None => Err GUnpack
                         | Some (Some (x, w)) => belief_level r x w
                         end
                     | NVariable _ => Err GKeyError
                     end ;;
            ' (node_colour, label_colour) <- get_graded_colours level ;;
            Ok (node_colour, label_colour, snd (default_node_colour n))
        end
    end.
  (** colours.py:35-48, 115-122 *)
  Definition get_background_colour (sch : scheme) : colour F :=
    match sch with PlainScheme => white ++ [n_ofZ 0] | _ => white end.
  Definition get_edge_colour (sch : scheme) : colour F :=
    match sch with PlainScheme => black | _ => [lit 1 2; lit 1 2; lit 1 2] end.
  Definition get_animation_progress_colour (sch : scheme) : colour F := black.
End Colours.
Arguments node : clear implicits. Arguments scheme : clear implicits. Arguments NSource {S V W}. Arguments NClaim {S V W}. Arguments NVariable {S V W}.
Arguments DefaultScheme {S V W F}. Arguments PlainScheme {S V W F}.

(** _sort_keys_by_value (draw.py:10-15) *)
Definition sort_keys_by_value {X} (lt : X -> X -> bool) (dct : dict nat X) : list nat :=
  map fst (sort_with (fun p q => lt (snd p) (snd q)) dct).
(** (a, b) < (c, d) on tuples *)
Definition pair_lt {A B} `{Eqb A} `{Eqb B} (lta : A -> A -> bool) (ltb : B -> B -> bool) (p q : A * B) : bool :=
  if beq (fst p) (fst q) then (if beq (snd p) (snd q) then false else ltb (snd p) (snd q)) else lta (fst p) (fst q).

(** math.atan2, np.cos, np.sin and math.pi *)
Record trig (F : Num) := Trig { t_atan2 : F -> F -> F; t_cos : F -> F; t_sin : F -> F; t_pi : F }.
Arguments Trig {F}. Arguments t_atan2 {F}. Arguments t_cos {F}. Arguments t_sin {F}. Arguments t_pi {F}.

(** ** GraphRenderer *)
(** Arguments of the constructor (draw.py:23-51); a border width of None has become 0. *)
Record sizes := Sizes { g_width : Z; g_radius : Z; g_spacing : Z; g_line_width : Z; g_border : Z; g_font : Z }.

Section Renderer.
  Context {S V W LS LV : Type} {ES : Eqb S} {EV : Eqb V} {EW : Eqb W} {EL : Eqb LV} {F : Num}.
  Notation data := (dataset S V W F).
  Notation ent := (entity F).

  (** What a renderer class uses to label nodes: the results of get_source_label, get_var_label and get_claim_label, str() of
      the first two, and < on labels.  Labels are mutually comparable (otherwise sorted raises a TypeError: not modelled). *)
  Record naming := Naming {
    nm_src : S -> LS; nm_var : V -> LV; nm_claim : V -> W -> pystr;
    nm_show_src : LS -> pystr; nm_show_var : LV -> pystr;
    nm_lt_src : LS -> LS -> bool; nm_lt_var : LV -> LV -> bool
  }.
  Variable src_tuple : S -> option (option (V * W)).
  Variable T : trig F.
  Variable sz : sizes.
  Variable nm : naming.

  (** _get_y_coord (draw.py:53-58) *)
  Definition y_coord (height : Z) (index num_nodes : nat) : F :=
    if Nat.ltb 1 num_nodes then n_add (n_ofZ (g_radius sz)) (n_div (n_ofZ ((height - 2 * g_radius sz) * Z.of_nat index)) (n_ofZ (Z.of_nat num_nodes - 1)))
    else n_div (n_ofZ height) (n_ofZ 2).
  (** draw.py:60-70 *)
  Definition get_source_coords (height : Z) (d : data) (index : nat) : F * F := (n_ofZ (g_radius sz), y_coord height index (num_sources d)).
  Definition get_claim_coords (height : Z) (d : data) (index : nat) : F * F := (n_div (n_ofZ (g_width sz)) (n_ofZ 2), y_coord height index (num_claims d)).
  Definition get_var_coords (claim_y_coords : list F) : F * F := (n_ofZ (g_width sz - g_radius sz), np_mean claim_y_coords).
  (** get_height (draw.py:84-92); int() of an integer is that integer *)
  Definition get_height (d : data) : Z :=
    let m := Z.of_nat (Nat.max (Nat.max (num_sources d) (num_claims d)) (num_variables d)) in
    (m * 2 * g_radius sz + (m - 1) * g_spacing sz)%Z.

  (** compile_background (draw.py:205-212) *)
  Definition compile_background (sch : scheme S V W F) (height : Z) : list ent :=
    [Rectangle (n_ofZ 0) (n_ofZ 0) (get_background_colour sch) (n_ofZ (g_width sz)) (n_ofZ height)].
  (** compile_node (draw.py:214-244) *)
  Definition compile_node (sch : scheme S V W F) (n : node S V W) (text : pystr) (coords : F * F) : res gerr (list ent) :=
    ' (node_c, label_c, border_c) <- get_node_colour src_tuple sch n ;;
    let (x, y) := coords in
    let lab := Label x y label_c text (n_ofZ (g_font sz)) (get_background_colour sch) in
    Ok ((if (0 <? g_border sz)%Z then [Circle x y border_c (n_ofZ (g_radius sz)) None] else [])
        ++ [Circle x y node_c (n_ofZ (g_radius sz - g_border sz)) (Some lab)]).
  (** rotation_matrix(angle) @ [x, 0] (draw.py:304-309) *)
  Definition rotate (angle x : F) : F * F :=
    (n_add (n_mul (t_cos T angle) x) (n_mul (n_opp (t_sin T angle)) (n_ofZ 0)), n_add (n_mul (t_sin T angle) x) (n_mul (t_cos T angle) (n_ofZ 0))).
  Definition vplus (p q : F * F) : F * F := (n_add (fst p) (fst q), n_add (snd p) (snd q)).
  (** compile_edge (draw.py:246-275); is_dashed is False (draw.py:295-301) *)
  Definition compile_edge (sch : scheme S V W F) (start fin : F * F) : list ent :=
    let colour := get_edge_colour sch in
    let lw : F := n_ofZ (g_line_width sz) in
    let arrow_size := 10%Z in
    let arrow_angle := n_div (t_pi T) (n_ofZ 7) in
    let edge_inclination := t_atan2 T (n_sub (snd fin) (snd start)) (n_sub (fst fin) (fst start)) in
    let node_crossing := vplus fin (rotate edge_inclination (n_ofZ (- g_radius sz))) in
    Line (fst start) (snd start) colour (fst fin) (snd fin) lw false ::
    map (fun s => let arrow_end := vplus node_crossing (rotate (n_add (n_mul (n_ofZ s) arrow_angle) edge_inclination) (n_ofZ (- arrow_size))) in
                  Line (fst node_crossing) (snd node_crossing) colour (fst arrow_end) (snd arrow_end) lw false) [(-1)%Z; 1%Z].
  (** compile_animation_progress_rect (draw.py:277-293) *)
  Definition compile_progress (sch : scheme S V W F) (height : Z) (progress : F) : list ent :=
    [Rectangle (n_ofZ 0) (n_ofZ (height - 5)) (get_animation_progress_colour sch) (n_mul (n_ofZ (g_width sz)) progress) (n_ofZ 5)].

  Definition look {X} (dct : dict nat X) (k : nat) : res gerr X := of_opt GKeyError (dget dct k).
  (** compile (draw.py:106-203) once the height is known *)
  Definition compile_at (sch : scheme S V W F) (height : Z) (d : data) (progress : option F) : res gerr (list ent) :=
    source_labels <- mapM (fun s_id => s <- of_opt GKeyError (inverse (source_ids d) s_id) ;; Ok (s_id, nm_src nm s)) (map snd (source_ids d)) ;;
    let source_labels := dict_of source_labels in
    var_labels <- mapM (fun var_id => x <- of_opt GKeyError (inverse (var_ids d) var_id) ;; Ok (var_id, nm_var nm x)) (map snd (var_ids d)) ;;
    let var_labels := dict_of var_labels in
    claim_labels <- mapM (fun item : (nat * nat) * nat => let '((var_id, val_hash), claim_id) := item in
        x <- of_opt GKeyError (inverse (var_ids d) var_id) ;; w <- of_opt GKeyError (inverse (val_hashes d) val_hash) ;;
        Ok (claim_id, nm_claim nm x w)) (claim_ids d) ;;
    let claim_labels := dict_of claim_labels in
    let source_coords := dict_of (map (fun p => (snd p, get_source_coords height d (fst p))) (enumerate (sort_keys_by_value (nm_lt_src nm) source_labels))) in
    claim_sort_keys <- mapM (fun item : (nat * nat) * nat => let '((var_id, _), claim_id) := item in
        a <- look var_labels var_id ;; b <- look claim_labels claim_id ;; Ok (claim_id, (a, b))) (claim_ids d) ;;
    let claim_coords := dict_of (map (fun p => (snd p, get_claim_coords height d (fst p)))
        (enumerate (sort_keys_by_value (pair_lt (nm_lt_var nm) str_ltb) (dict_of claim_sort_keys)))) in
    var_coords <- mapM (fun var_id =>
        claim_ys <- mapM (fun item : (nat * nat) * nat => xy <- look claim_coords (snd item) ;; Ok (snd xy)) (filter (fun item : (nat * nat) * nat => Nat.eqb (fst (fst item)) var_id) (claim_ids d)) ;;
        Ok (var_id, get_var_coords claim_ys)) (sort_keys_by_value (nm_lt_var nm) var_labels) ;;
    let var_coords := dict_of var_coords in
    source_edges <- mapM (fun p : nat * nat => let (s_id, claim_id) := p in
        ' (_, val_hash) <- of_opt GKeyError (inverse (claim_ids d) claim_id) ;;
        _ <- of_opt GKeyError (inverse (source_ids d) s_id) ;; _ <- of_opt GKeyError (inverse (val_hashes d) val_hash) ;;
        a <- look source_coords s_id ;; b <- look claim_coords claim_id ;; Ok (compile_edge sch a b)) (nonzero (sc d)) ;;
    claim_parts <- mapM (fun item : (nat * nat) * nat => let '((var_id, val_hash), claim_id) := item in
        w <- of_opt GKeyError (inverse (val_hashes d) val_hash) ;; x <- of_opt GKeyError (inverse (var_ids d) var_id) ;;
        a <- look claim_coords claim_id ;; b <- look var_coords var_id ;; l <- look claim_labels claim_id ;;
        n <- compile_node sch (NClaim x w) l a ;;
        Ok (compile_edge sch a b ++ n)) (claim_ids d) ;;
    var_nodes <- mapM (fun item : V * nat => let (var, var_id) := item in
        a <- look var_coords var_id ;; l <- look var_labels var_id ;; compile_node sch (NVariable var) (nm_show_var nm l) a) (var_ids d) ;;
    source_nodes <- mapM (fun item : S * nat => let (source, s_id) := item in
        a <- look source_coords s_id ;; l <- look source_labels s_id ;; compile_node sch (NSource source) (nm_show_src nm l) a) (source_ids d) ;;
    Ok (compile_background sch height ++ concat source_edges ++ concat claim_parts ++ concat var_nodes ++ concat source_nodes
        ++ match progress with Some p => compile_progress sch height p | None => [] end).

  (** The mutable part of a renderer that drawing depends on: the height (None until it is first computed) and the colours. *)
  Record rstate := RState { rs_height : option Z; rs_colours : scheme S V W F }.
  (** compile called directly (draw.py:106-203): the height is computed only if it is None or 0 *)
  Definition compile (st : rstate) (d : data) (progress : option F) : rstate * res gerr (list ent) :=
    let height := match rs_height st with None | Some 0%Z => get_height d | Some h => h end in
    (RState (Some height) (rs_colours st), compile_at (rs_colours st) height d progress).
  (** what JsonBackend.draw_entities (json_backend.py:11-17) writes *)
  Record drawing := Drawing { dr_width : Z; dr_height : Z; dr_entities : list (json F) }.
  (** render (draw.py:94-104) with the JSON backend *)
  Definition render (st : rstate) (d : data) (progress : option F) : rstate * res gerr drawing :=
    let (st', r) := compile (RState (Some (get_height d)) (rs_colours st)) d progress in
    (st', es <- r ;; Ok (Drawing (g_width sz) (get_height d) (map (fun e => entity_to_dict (py_entity e)) es))).

  (** ** Animations (graphs/animation.py:49-65) *)
  (** the loop of get_frames, over the items of enumerate(all_results) *)
  Fixpoint frames_loop (st : rstate) (d : data) (show_progress : bool) (num_iterations : Z) (l : list (nat * result S V W F)) : rstate * res gerr (list drawing) :=
    match l with
    | [] => (st, Ok [])
    | (i, results) :: rest =>
        let st := RState (rs_height st) (GradientScheme results) in
        if show_progress && Z.eqb num_iterations 0 then (st, Err GZeroDivision)
        else
          let progress := if show_progress then Some (n_div (n_ofZ (Z.of_nat i)) (n_ofZ num_iterations)) else None in
          let (st', r) := render st d progress in
          match r with
          | Err e => (st', Err e)
          | Ok f => let (st'', fs) := frames_loop st' d show_progress num_iterations rest in (st'', fs' <- fs ;; Ok (f :: fs'))
          end
    end.
  Definition get_frames (clock : nat -> F) (fuel : nat) (st : rstate) (o : aobj S V W F) (d : data) (show_progress : bool) : (rstate * aobj S V W F) * res gerr (list drawing) :=
    let (r, o') := run_iter clock fuel o d in
    match r with
    | Err e => ((st, o'), Err (GAlgorithm e))
    | Ok all_results => let (st', fs) := frames_loop st d show_progress (Z.of_nat (length all_results) - 1) (enumerate all_results) in ((st', o'), fs)
    end.
  (** JsonAnimator.write (animation.py:93-98): json.load of what each frame wrote, and fps = 1 / frame_duration *)
  Definition write_animation (frame_duration : F) (frames : list drawing) : F * list drawing := (n_div (n_ofZ 1) frame_duration, frames).
End Renderer.
Arguments naming : clear implicits. Arguments rstate : clear implicits. Arguments drawing : clear implicits.

(** ** The two renderer classes *)
(** GraphRenderer (draw.py:72-82): source and variable labels are the labels themselves; "{var} = {val}".format *)
Definition base_naming {S V W} (show_s : S -> pystr) (show_v : V -> pystr) (show_w : W -> pystr) (lt_s : S -> S -> bool) (lt_v : V -> V -> bool) : naming S V W S V :=
  {| nm_src := fun s => s; nm_var := fun x => x; nm_claim := fun x w => show_v x ++ lit_str " = " ++ show_w w;
     nm_show_src := show_s; nm_show_var := show_v; nm_lt_src := lt_s; nm_lt_var := lt_v |}.
(** MatrixDatasetGraphRenderer (draw.py:311-337): labels are row and column numbers; [show_nat] is str() of an int *)
Definition format_label (show_nat : nat -> pystr) (zero_indexed : bool) (i : nat) : pystr := show_nat (if zero_indexed then i else i + 1).
(** val[:-2] if val.endswith(".0") *)
Definition strip_point_zero (val : pystr) : pystr :=
  if beq (skipn (length val - 2) val) (lit_str ".0") && Nat.leb 2 (length val) then firstn (length val - 2) val else val.
Definition matrix_naming {W} (show_nat : nat -> pystr) (show_w : W -> pystr) (zero_indexed : bool) : naming nat nat W pystr pystr :=
  let v i := lit_str "v" ++ format_label show_nat zero_indexed i in
  {| nm_src := fun i => lit_str "s" ++ format_label show_nat zero_indexed i; nm_var := v;
     nm_claim := fun j w => v j ++ lit_str "=" ++ strip_point_zero (show_w w);
     nm_show_src := fun s => s; nm_show_var := fun s => s; nm_lt_src := str_ltb; nm_lt_var := str_ltb |}.
