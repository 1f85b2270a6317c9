(** Model of what the web page shows: the canvas drawings (static/app/graph_drawer.js), the animation player (static/app/animator.js), the
    treatment of an answer for display (static/app/app.js:86-135) and the results tables (ResultsController, app.js:304-443, and
    static/app/templates/results.html). *)
From Coq Require Import NArith String.
From Verif Require Import Base Num Spec Dataset Iterators Algorithms Results PyStr Client Graph Png Front.

(** ** Drawing *)
Section Canvas.
  Context {F : Num}.
  (** the width of a text in "normal <size>px Arial" (measureText) *)
  Variable measure : F -> pystr -> F.
  (** the three numbers of a colour "rgb(r, g, b)" *)
  Definition rgb : Type := (F * F * F)%type.
  (** what is on a canvas; paths as in Png.v *)
  Inductive cmark :=
  | CFilled (c : rgb) (path : list (seg F))
  | CStroked (c : rgb) (width : F) (path : list (seg F))
  | CText (c : rgb) (size x y : F) (text : pystr).                 (* text left-aligned at x, its middle at y *)
  Record cctx := CCtx { x_fill : rgb; x_stroke : rgb; x_line_width : F; x_font : F; x_path : list (seg F) }.
  Record canvas := Canvas { v_width : Z; v_height : Z; v_marks : list cmark }.
  Definition css_black : rgb := (n_ofZ 0, n_ofZ 0, n_ofZ 0).
  (** assigning to canvas.width or canvas.height erases the canvas and resets the context: black, line width 1, font size 10 *)
  Definition fresh_ctx : cctx := CCtx css_black css_black (n_ofZ 1) (n_ofZ 10) [].

  (** get_colour_string (graph_drawer.js:97-102).  None is not the string of a colour, because of components that are not there;
      assigning it to fillStyle or strokeStyle has no effect.  A fourth component is not used. *)
  Definition get_colour_string (c : list F) : option rgb :=
    match c with r :: g :: b :: _ => Some (n_mul r (n_ofZ 255), n_mul g (n_ofZ 255), n_mul b (n_ofZ 255)) | _ => None end.
  Definition set_fill (k : cctx) (c : option rgb) : cctx := match c with Some c => CCtx c (x_stroke k) (x_line_width k) (x_font k) (x_path k) | None => k end.
  Definition set_stroke (k : cctx) (c : option rgb) : cctx := match c with Some c => CCtx (x_fill k) c (x_line_width k) (x_font k) (x_path k) | None => k end.
  Definition set_width (k : cctx) (w : F) : cctx := CCtx (x_fill k) (x_stroke k) w (x_font k) (x_path k).
  Definition set_font (k : cctx) (s : F) : cctx := CCtx (x_fill k) (x_stroke k) (x_line_width k) s (x_path k).
  Definition set_path (k : cctx) (p : list (seg F)) : cctx := CCtx (x_fill k) (x_stroke k) (x_line_width k) (x_font k) p.
  Definition begin_path (k : cctx) : cctx := set_path k [].
  Definition add_path (k : cctx) (s : seg F) : cctx := set_path k (x_path k ++ [s]).
  (** Math.min and Math.max of two numbers that are not NaN *)
  Definition js_min (a b : F) : F := if n_ltb b a then b else a.
  Definition js_max (a b : F) : F := if n_ltb a b then b else a.

  (** o.name of an object, with the type that is expected; None otherwise *)
  Definition num_of (o : dict pystr (json F)) (name : string) : option F := match dget o (lit_str name) with Some (JNum x) => Some x | _ => None end.
  Definition str_of (o : dict pystr (json F)) (name : string) : option pystr := match dget o (lit_str name) with Some (JStr s) => Some s | _ => None end.
  Definition arr_of (o : dict pystr (json F)) (name : string) : option (list F) := match dget o (lit_str name) with Some (JArr l) => Some l | _ => None end.

  Local Notation "'let*' x ':=' e 'in' f" := (match e with Some x => f | None => None end) (at level 200, x binder, right associativity).
  (** draw_label (graph_drawer.js:64-92).  None: a field is missing or not of its type, which is not what the server sends (C91_marks). *)
  Definition canvas_label (k : cctx) (label : dict pystr (json F)) (max_width : F) (canvas_width : Z) : option (cctx * list cmark) :=
    let* size := num_of label "size" in
    let* text := str_of label "text" in
    let* x := num_of label "x" in
    let* y := num_of label "y" in
    let* colour := arr_of label "colour" in
    let* overflow := arr_of label "overflow_background" in
    let k := set_font k size in
    let width := measure size text in
    let lhs := js_max (n_ofZ 0) (js_min (n_sub (n_ofZ canvas_width) width) (n_sub x (n_div width (n_ofZ 2)))) in
    let '(k, ms, label_c) :=
      if n_ltb max_width width then
        let label_c := match overflow with r :: g :: b :: _ => [n_sub (n_ofZ 1) r; n_sub (n_ofZ 1) g; n_sub (n_ofZ 1) b] | _ => [] end in
        let k := set_fill k (get_colour_string overflow) in
        let padding : F := n_ofZ 5 in
        let two : F := n_ofZ 2 in
        (k, [CFilled (x_fill k) [RectOf (n_sub lhs padding) (n_sub (n_sub y (n_div size two)) padding) (n_add width (n_mul two padding)) (n_add size (n_mul two padding))]], label_c)
      else (k, [], colour) in
    let k := set_fill k (get_colour_string label_c) in
    Some (k, ms ++ [CText (x_fill k) (x_font k) lhs y text]).
  (** one iteration of the loop of draw_graph (graph_drawer.js:27-56) *)
  Definition canvas_entity (k : cctx) (ent : json F) (width : Z) : option (cctx * list cmark) :=
    match ent with
    | JObj o =>
        let* colour := arr_of o "colour" in
        let c := get_colour_string colour in
        let* type := str_of o "type" in
        if beq type (lit_str "circle") then
          let* x := num_of o "x" in let* y := num_of o "y" in let* radius := num_of o "radius" in
          let k := add_path (begin_path (set_fill k c)) (ArcOf x y radius) in
          let m := CFilled (x_fill k) (x_path k) in
          match dget o (lit_str "label") with
          | Some JNull => Some (k, [m])
          | Some (JObj label) => let* r := canvas_label k label (n_mul (n_ofZ 2) radius) width in Some (fst r, m :: snd r)
          | _ => None
          end
        else if beq type (lit_str "rectangle") then
          let* x := num_of o "x" in let* y := num_of o "y" in let* w := num_of o "width" in let* h := num_of o "height" in
          let k := set_fill k c in Some (k, [CFilled (x_fill k) [RectOf x y w h]])
        else if beq type (lit_str "line") then
          let* x := num_of o "x" in let* y := num_of o "y" in let* ex := num_of o "end_x" in let* ey := num_of o "end_y" in let* w := num_of o "width" in
          let k := add_path (add_path (begin_path (set_width (set_stroke k c) w)) (MoveTo x y)) (LineTo ex ey) in
          Some (k, [CStroked (x_stroke k) (x_line_width k) (x_path k)])
        else Some (k, [])
    | _ => None
    end.
  Fixpoint canvas_loop (k : cctx) (es : list (json F)) (width : Z) : option (list cmark) :=
    match es with
    | [] => Some []
    | e :: es => let* r := canvas_entity k e width in let* ms := canvas_loop (fst r) es width in Some (snd r ++ ms)
    end.
  (** draw_graph (graph_drawer.js:22-57); what was on the canvas before is erased *)
  Definition draw_graph (obj : drawing F) : option canvas :=
    let* ms := canvas_loop fresh_ctx (dr_entities obj) (dr_width obj) in Some (Canvas (dr_width obj) (dr_height obj) ms).

  (** ** The animation player *)
  (** [an_frames]: None is null.  [an_canvas]: None while nothing has been drawn. *)
  Record animator := Animator { an_frames : option (list (drawing F)); an_current : Z; an_canvas : option canvas }.
  Definition new_animator : animator := Animator None 0 None.      (* animator.js:1-5; current_frame is null, which no operation looks at *)
  (** redraw (animator.js:15-21); None is an exception: frames[current_frame] is undefined *)
  Definition redraw (a : animator) : option animator :=
    match an_frames a with
    | None => Some a
    | Some fs =>
        if (an_current a <? 0)%Z then None
        else let* f := nth_error fs (Z.to_nat (an_current a)) in let* c := draw_graph f in Some (Animator (Some fs) (an_current a) (Some c))
    end.
  Definition load (a : animator) (frames : list (drawing F)) : option animator := redraw (Animator (Some frames) 0 (an_canvas a)).   (* animator.js:7-13 *)
  Definition set_frame (a : animator) (new_frame : Z) : option animator :=                                                          (* animator.js:31-37 *)
    match an_frames a with
    | None => Some a
    | Some fs => redraw (Animator (Some fs) (Z.max 0 (Z.min new_frame (Z.of_nat (length fs) - 1))) (an_canvas a))
    end.
  Definition previous_frame (a : animator) := set_frame a (an_current a - 1).       (* animator.js:23-25 *)
  Definition next_frame (a : animator) := set_frame a (an_current a + 1).           (* animator.js:27-29 *)
  (** what the user can do (results.html:139-178, app.js:406-419): buttons, arrow keys, the slider.  The range input of AngularJS 1.7
      sets its model to a number. *)
  Inductive player_action := PreviousButton | NextButton | Key (code : Z) | Slider (k : Z).
  Definition play (a : animator) (x : player_action) : option animator :=
    match x with
    | PreviousButton => previous_frame a
    | NextButton => next_frame a
    | Key code => if (code =? 37)%Z then previous_frame a else if (code =? 39)%Z then next_frame a else Some a
    | Slider k => redraw (Animator (an_frames a) k (an_canvas a))
    end.
  (** the player is shown if there are frames; its buttons are disabled at the ends, the slider goes from 0 to the number of frames - 1 *)
  Definition player_offers (a : animator) (x : player_action) : bool :=
    match an_frames a with
    | None => false
    | Some fs =>
        match x with
        | PreviousButton => negb (an_current a =? 0)%Z
        | NextButton => negb (an_current a =? Z.of_nat (length fs) - 1)%Z
        | Key _ => true
        | Slider k => ((0 <=? k) && (k <=? Z.of_nat (length fs) - 1))%Z
        end
    end.

  (** ** The tables *)
  (** Math.max.apply(null, l); None is -Infinity *)
  Definition max_of (l : list F) : option F := match l with [] => None | x :: t => Some (fold_left js_max t x) end.
  (** a table: its rows, in the order in which for ... in lists the names, and the greatest score.  A row is a name (a source, or a value)
      and a score. *)
  Record table := Table { tb_rows : list (pystr * F); tb_max : option F }.
  Variable for_in : list pystr -> list pystr.
  Definition make_table (scores : dict pystr F) : table :=
    Table (flat_map (fun k => match dget scores k with Some x => [(k, x)] | None => [] end) (for_in (dkeys scores))) (max_of (map snd scores)).
  (** ng-class "text-bold": score == max (results.html:58, 102) *)
  Definition bold (t : table) (row : pystr * F) : bool := match tb_max t with Some m => n_eqb (snd row) m | None => false end.

  (** sorting (app.js:318-327, 371-394) *)
  Inductive column := ByName | ByScore.          (* "source" or "val"; "trust" or "belief" *)
  Inductive icon := IconUnsorted | IconUp | IconDown.
  Definition column_eqb (a b : column) : bool := match a, b with ByName, ByName | ByScore, ByScore => true | _, _ => false end.
  Record sorting := Sorting { so_col : column; so_asc : bool; so_icons : column -> icon }.
  Definition new_sorting : sorting := Sorting ByName true (fun _ => IconUnsorted).
  Definition set_icon (f : column -> icon) (c : column) (i : icon) : column -> icon := fun c' => if column_eqb c' c then i else f c'.
  Definition sort_click (s : sorting) (col : column) : sorting :=
    if column_eqb (so_col s) col then let asc := negb (so_asc s) in Sorting col asc (set_icon (so_icons s) col (if asc then IconUp else IconDown))
    else Sorting col false (set_icon (set_icon (so_icons s) (so_col s) IconUnsorted) col IconDown).
  (** orderBy of AngularJS: stable; names are strings, compared without regard to case *)
  Definition row_ltb (col : column) (a b : pystr * F) : bool := match col with ByName => str_ltb (lower (fst a)) (lower (fst b)) | ByScore => n_ltb (snd a) (snd b) end.
  Definition ordered_rows (s : sorting) (t : table) : list (pystr * F) :=
    sort_with (if so_asc s then row_ltb (so_col s) else fun a b => row_ltb (so_col s) b a) (tb_rows t).
End Canvas.
Arguments rgb : clear implicits. Arguments cmark : clear implicits. Arguments canvas : clear implicits. Arguments animator : clear implicits. Arguments table : clear implicits.

(** ** An answer *)
Section Answer.
  Context {W : Type} {F : Num}.
  Variable measure : F -> pystr -> F.
  Variable for_in : list pystr -> list pystr.
  Variable show_nat : nat -> pystr.
  Variable show_w : W -> pystr.
  Notation entry := (web_entry (W:=W) (F:=F)).
  (** the page: for every label a canvas for the graph, an animator, and the tables (None: the scores are not in the form the tables need,
      and orderBy is an error) *)
  Record shown := Shown { sh_graph : option (canvas F); sh_animator : animator F; sh_tables : option (table F * dict pystr (table F)) }.
  Definition view := pystr -> shown.
  Definition new_view : view := fun _ => Shown None new_animator None.
  Definition set_shown (v : view) (l : pystr) (s : shown) : view := fun l' => if beq l' l then s else v l'.
  (** the "trust" and "belief" of the answer: JSON objects *)
  Definition trust_object (e : entry) : dict pystr F := match dget (we_fields e) FTrust with Some (VTrust t) => map (fun p => (show_nat (fst p), snd p)) t | _ => [] end.
  Definition belief_object (e : entry) : dict pystr (dict pystr F) :=
    match dget (we_fields e) FBelief with Some (VBelief b) => map (fun p => (show_nat (fst p), map (fun q => (show_w (fst q), snd q)) (snd p))) b | _ => [] end.
  (** one iteration of the loop of app.js:86-135; the flag says whether there was an exception.  The answer replaces the one before. *)
  Definition show_entry (v : view) (l : pystr) (e : entry) : view * bool :=
    match draw_graph measure (we_graph e) with
    | None => (v, true)
    | Some c =>
        let tables := Some (make_table for_in (trust_object e), map (fun p => (fst p, make_table for_in (snd p))) (belief_object e)) in
        match we_animation e with
        | None => (set_shown v l (Shown (Some c) (sh_animator (v l)) tables), false)
        | Some (_, frames) =>
            match load measure (sh_animator (v l)) frames with
            | Some a => (set_shown v l (Shown (Some c) a tables), false)
            | None => (set_shown v l (Shown (Some c) (Animator (Some frames) 0 (an_canvas (sh_animator (v l)))) (sh_tables (v l))), true)
            end
        end
    end.
  Fixpoint show_entries (v : view) (data : list (pystr * entry)) : view * bool :=
    match data with
    | [] => (v, false)
    | (l, e) :: data => let (v, threw) := show_entry v l e in if threw then (v, true) else show_entries v data
    end.
  (** the answer as it arrives has no tables yet *)
  Definition show_answer (v : view) (data : list (pystr * entry)) : view * bool :=
    show_entries (fun l => Shown (sh_graph (v l)) (sh_animator (v l)) None) data.
End Answer.
Arguments shown : clear implicits. Arguments view : clear implicits.

(** ** Differences (exact numbers) *)
From Coq Require Import Reals.
Section Differences.
  Local Open Scope R_scope.
  (** getDiffClass (app.js:349-357); None is undefined *)
  Inductive diff_class := TextSuccess | TextError | TextGray.
  Definition get_diff_class (d : option R) : diff_class :=
    match d with Some x => if Rlt_dec 0 x then TextSuccess else if Rlt_dec x 0 then TextError else TextGray | None => TextGray end.
  (** The filter number:7 rounds to seven decimals, half away from zero, and groups the thousands with commas, which Number() does not
      read: None is NaN.  [rounded x] is the number of units of 10^-7. *)
  Definition rounded (x : R) : Z := (up (Rabs x * 10 ^ 7 + 1 / 2) - 1)%Z.
  Definition filtered (x : R) : option R :=
    if (10 ^ 10 <=? rounded x)%Z then None else Some (if Rlt_dec x 0 then - (IZR (rounded x) / 10 ^ 7) else IZR (rounded x) / 10 ^ 7).
  (** formatDiff (app.js:359-365), applied to what the filter gives (results.html:64, 108): nothing, or "(", a sign, a magnitude, ")" *)
  Inductive diff_text := NoText | SignedText (plus : bool) (magnitude : option R).
  Definition format_diff (d : option R) : diff_text :=
    match d with
    | None => NoText
    | Some x => SignedText (match filtered x with Some y => if Rle_dec 0 y then true else false | None => false end) (option_map Rabs (filtered x))
    end.
End Differences.
