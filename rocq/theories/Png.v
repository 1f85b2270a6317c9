(** Model of graphs/backends/png_backend.py.  Cairo is modelled by the part of its drawing context that the backend uses: every
    call changes the context or leaves a mark on the picture.  Sizes of texts are oracles. *)
From Coq Require Import NArith String Reals.
From Verif Require Import Base Num Sparse Spec Dataset Iterators Algorithms Results PyStr Client Graph.

Section Png.
  Context {F : Num}.
  (** ** Cairo *)
  (** Segments of a path.  [ArcOf x y r] is a full circle that starts at (x + r, y); cairo joins it to the current point by a
      straight line if there is one. *)
  Inductive seg := MoveTo (x y : F) | LineTo (x y : F) | ArcOf (x y r : F) | RectOf (x y w h : F).
  (** What is put on the picture: filled paths, stroked paths, texts. *)
  Inductive mark :=
  | Filled (c : colour F) (path : list seg)
  | Stroked (c : colour F) (width : F) (dash : list F) (path : list seg)
  | Text (c : colour F) (size x y : F) (text : pystr).
  (** text_extents: width, height and y_bearing; x_advance and y_advance of show_text *)
  Record extents := Extents { e_width : F; e_height : F; e_y_bearing : F; e_x_advance : F; e_y_advance : F }.
  Variable text_extents : F -> pystr -> extents.
  Record ctx := Ctx { c_source : colour F; c_font : F; c_dash : list F; c_line_width : F; c_path : list seg }.
  (** TypeError of set_source_rgba with other than 3 or 4 arguments, ValueError of "r, g, b, a = colour"; cairo.Error of
      ImageSurface with a size that is negative or above 32767, and of write_to_png with size 0 *)
  Inductive perr := PColour | PSize | PWrite | PGraph (e : gerr).
  Definition set_source_rgba (k : ctx) (c : colour F) : res perr ctx :=
    if (Nat.eqb (length c) 3 || Nat.eqb (length c) 4)%bool then Ok (Ctx c (c_font k) (c_dash k) (c_line_width k) (c_path k)) else Err PColour.
  (** a new sub-path: a sub-path that is only a point is dropped *)
  Definition trim (p : list seg) : list seg := match rev p with MoveTo _ _ :: _ => removelast p | _ => p end.
  Definition with_path (k : ctx) (p : list seg) : ctx := Ctx (c_source k) (c_font k) (c_dash k) (c_line_width k) p.
  Definition move_to (k : ctx) (x y : F) : ctx := with_path k (trim (c_path k) ++ [MoveTo x y]).
  Definition line_to (k : ctx) (x y : F) : ctx := with_path k (c_path k ++ [LineTo x y]).
  Definition arc (k : ctx) (x y r : F) : ctx := with_path k (c_path k ++ [ArcOf x y r]).
  Definition rectangle (k : ctx) (x y w h : F) : ctx := with_path k (trim (c_path k) ++ [RectOf x y w h]).
  Definition set_font_size (k : ctx) (s : F) : ctx := Ctx (c_source k) s (c_dash k) (c_line_width k) (c_path k).
  Definition set_dash (k : ctx) (l : list F) : ctx := Ctx (c_source k) (c_font k) l (c_line_width k) (c_path k).
  Definition set_line_width (k : ctx) (w : F) : ctx := Ctx (c_source k) (c_font k) (c_dash k) w (c_path k).
  Definition fill (k : ctx) : ctx * mark := (with_path k [], Filled (c_source k) (c_path k)).
  Definition stroke (k : ctx) : ctx * mark := (with_path k [], Stroked (c_source k) (c_line_width k) (c_dash k) (c_path k)).
  (** show_text at the current point, which here is always that of a move_to just before; the point advances *)
  Definition show_text (k : ctx) (x y : F) (t : pystr) : ctx * mark :=
    let e := text_extents (c_font k) t in
    (move_to k (n_add x (e_x_advance e)) (n_add y (e_y_advance e)), Text (c_source k) (c_font k) x y t).

  (** ** The backend *)
  (** Python's min(a, b) and max(a, b) *)
  Definition py_min2 (a b : F) : F := if n_ltb b a then b else a.
  Definition py_max2 (a b : F) : F := if n_ltb a b then b else a.
  (** where the text of a label starts (png_backend.py:48-49) *)
  Definition label_lhs (image_width : Z) (ext_width x : F) : F :=
    py_max2 (n_ofZ 0) (py_min2 (n_sub (n_ofZ image_width) ext_width) (n_sub x (n_div ext_width (n_ofZ 2)))).
  (** (1 - r, 1 - g, 1 - b) (png_backend.py:54-64) *)
  Definition inverted (c : colour F) : res perr (colour F) :=
    match c with
    | [r; g; b] | [r; g; b; _] => Ok [n_sub (n_ofZ 1) r; n_sub (n_ofZ 1) g; n_sub (n_ofZ 1) b]
    | _ => Err PColour
    end.
  (** draw_label (png_backend.py:44-77).  It assigns to the colour of the label: the new label is returned. *)
  Definition draw_label (k : ctx) (l : label F) (max_width : F) (image_width : Z) : res perr (ctx * list mark * label F) :=
    let k := set_font_size k (l_size l) in
    let ext := text_extents (l_size l) (l_text l) in
    let lhs := label_lhs image_width (e_width ext) (l_x l) in
    let padding : F := n_ofZ 5 in
    let two : F := n_ofZ 2 in
    ' (k, ms, l) <- (if n_ltb max_width (e_width ext)
      then
        c <- inverted (l_overflow l) ;;
        k <- set_source_rgba k (l_overflow l) ;;
        let k := rectangle k (n_sub lhs padding) (n_sub (n_sub (l_y l) (n_div (e_height ext) two)) padding)
                   (n_add (e_width ext) (n_ofZ 10)) (n_add (e_height ext) (n_ofZ 10)) in
        let (k, m) := fill k in
        Ok (k, [m], Label (l_x l) (l_y l) c (l_text l) (l_size l) (l_overflow l))
      else Ok (k, [], l)) ;;
    k <- set_source_rgba k (l_colour l) ;;
    let y := n_sub (l_y l) (n_div (e_y_bearing ext) two) in
    let k := move_to k lhs y in
    let (k, m) := show_text k lhs y (l_text l) in
    Ok (k, ms ++ [m], l).
  (** one iteration of the loop of draw_entities (png_backend.py:20-40); the entity is returned because of its label *)
  Definition draw_entity (k : ctx) (e : entity F) (width : Z) : res perr (ctx * list mark * entity F) :=
    match e with
    | Rectangle x y c w h =>
        k <- set_source_rgba k c ;;
        let (k, m) := fill (rectangle k x y w h) in Ok (k, [m], e)
    | Circle x y c r lab =>
        k <- set_source_rgba k c ;;
        let (k, m) := fill (arc k x y r) in
        match lab with
        | None => Ok (k, [m], e)
        | Some l => ' (k, ms, l) <- draw_label k l (n_mul (n_ofZ 2) r) width ;; Ok (k, m :: ms, Circle x y c r (Some l))
        end
    | Line x y c ex ey w dashed =>
        k <- set_source_rgba k c ;;
        let k := set_dash k (if dashed then [n_ofZ 10] else []) in
        let k := set_line_width k w in
        let k := line_to (move_to k x y) ex ey in
        let (k, m) := stroke k in Ok (k, [m], e)
    end.
  Fixpoint draw_loop (k : ctx) (es : list (entity F)) (width : Z) : res perr (ctx * list mark * list (entity F)) :=
    match es with
    | [] => Ok (k, [], [])
    | e :: es =>
        ' (k, ms, e) <- draw_entity k e width ;;
        ' (k, ms', es) <- draw_loop k es width ;;
        Ok (k, ms ++ ms', e :: es)
    end.
  (** a new context: black, font size 10, no dashes, line width 2 *)
  Definition new_ctx : ctx := Ctx [n_ofZ 0; n_ofZ 0; n_ofZ 0] (n_ofZ 10) [] (n_ofZ 2) [].
  Record picture := Picture { p_width : Z; p_height : Z; p_marks : list mark }.
  Definition size_ok (n : Z) : bool := ((0 <=? n) && (n <=? 32767))%Z.
  (** draw_entities (png_backend.py:13-42): the picture, and the entities as they are afterwards *)
  Definition draw_entities (es : list (entity F)) (width height : Z) : res perr (picture * list (entity F)) :=
    if negb (size_ok width && size_ok height) then Err PSize
    else
      ' (_, ms, es) <- draw_loop new_ctx es width ;;
      if (Z.eqb width 0 || Z.eqb height 0)%bool then Err PWrite else Ok (Picture width height ms, es).
End Png.
Arguments seg : clear implicits. Arguments mark : clear implicits. Arguments extents : clear implicits. Arguments ctx : clear implicits. Arguments picture : clear implicits.

Section RenderPng.
  Context {S V W LS LV : Type} {ES : Eqb S} {EV : Eqb V} {EW : Eqb W} {EL : Eqb LV} {F : Num}.
  Variable src_tuple : S -> option (option (V * W)).
  Variable T : trig F.
  Variable sz : sizes.
  Variable nm : naming S V W LS LV.
  Variable text_extents : F -> pystr -> extents F.
  (** GraphRenderer.render (draw.py:94-104) with the PNG backend.  The entities are generated while they are drawn, so an error of
      the size comes first. *)
  Definition render_png (st : rstate S V W F) (d : dataset S V W F) (progress : option F) : rstate S V W F * res perr (picture F) :=
    let height := get_height sz d in
    let (st', r) := compile src_tuple T sz nm (RState (Some height) (rs_colours st)) d progress in
    (st', if negb (size_ok (g_width sz) && size_ok height) then Err PSize
          else match r with
               | Err e => Err (PGraph e)
               | Ok es => ' (p, _) <- draw_entities text_extents es (g_width sz) height ;; Ok p
               end).
End RenderPng.
