(** * C90, C91, C92: what the page shows *)
From Coq Require Import NArith String Reals Lra Lia.
From Verif Require Import Base Num Sparse Spec Dataset DatasetProofs DatasetRep Iterators Algorithms Results PropsResult PyStr Regex Matrix Supervised Client PropsClient PropsOutput Graph GraphRep PropsGraph PropsColour Png SpecAlg AlgRep AlgRounds AlgTF
  Driver Rounds PropsIter PropsRun PropsAlg PropsPng PropsLayout Front FrontRep PropsCli PropsWeb WebForm PropsForm WebPage PropsPage WebView PropsSafe PropsExperiment PropsMatrix.
Local Close Scope R_scope.

(** ** C91: drawing *)
Section Drawing.
  Context {F : Num}.
  Variable measure : F -> pystr -> F.
  (** *** Specification *)
  (** a colour of the server, with components from 0 to 1, in the page: from 0 to 255, without the fourth *)
  Definition css (c : colour F) (k : rgb F) : Prop := exists r g b a, c = r :: g :: b :: a /\ k = (n_mul r (n_ofZ 255), n_mul g (n_ofZ 255), n_mul b (n_ofZ 255)).
  Definition view_label (image_width : Z) (max_width : F) (l : label F) (ms : list (cmark F)) : Prop :=
    let w := measure (l_size l) (l_text l) in
    let x0 := label_lhs image_width w (l_x l) in
    if n_ltb max_width w then
      exists r g b a c c', l_overflow l = r :: g :: b :: a /\ css (l_overflow l) c /\ css [n_sub (n_ofZ 1) r; n_sub (n_ofZ 1) g; n_sub (n_ofZ 1) b] c' /\ ms =
        [CFilled c [RectOf (n_sub x0 (n_ofZ 5)) (n_sub (n_sub (l_y l) (n_div (l_size l) (n_ofZ 2))) (n_ofZ 5)) (n_add w (n_mul (n_ofZ 2) (n_ofZ 5))) (n_add (l_size l) (n_mul (n_ofZ 2) (n_ofZ 5)))];
         CText c' (l_size l) x0 (l_y l) (l_text l)]
    else exists c, css (l_colour l) c /\ ms = [CText c (l_size l) x0 (l_y l) (l_text l)].
  (** the marks of one entity on the canvas *)
  Definition view_shows (image_width : Z) (e : entity F) (ms : list (cmark F)) : Prop :=
    match e with
    | Rectangle x y c w h => exists k, css c k /\ ms = [CFilled k [RectOf x y w h]]
    | Line x y c ex ey w dashed => exists k, css c k /\ ms = [CStroked k w [MoveTo x y; LineTo ex ey]]
    | Circle x y c r lab => exists k rest, css c k /\ ms = CFilled k [ArcOf x y r] :: rest /\
        match lab with None => rest = [] | Some l => view_label image_width (n_mul (n_ofZ 2) r) l rest end
    end.
  (** the drawing that the server makes of entities *)
  Definition drawing_of (es : list (entity F)) (width height : Z) : drawing F := Drawing width height (map (fun e => entity_to_dict (py_entity e)) es).

  (** *** Proofs *)
  Lemma rgba_css c : rgba c -> exists k, css c k /\ get_colour_string c = Some k.
  Proof. intros [H|H]; destruct c as [|r [|g [|b a]]]; cbn in H; try lia; eexists; (split; [exists r, g, b, a; split; reflexivity|reflexivity]). Qed.
  Lemma canvas_label_char k (l : label F) mw iw o : rgba (l_colour l) -> rgba (l_overflow l) -> entity_to_dict (py_label l) = JObj o ->
    exists k' ms, canvas_label measure k o mw iw = Some (k', ms) /\ view_label iw mw l ms.
  Proof.
    intros Hc Ho E. rewrite label_json in E. injection E as <-. unfold canvas_label. cbn -[n_ltb n_mul n_add n_sub n_div n_ofZ js_max js_min get_colour_string].
    destruct (rgba_css _ Hc) as (c & Sc & Gc). destruct (rgba_css _ Ho) as (co & So & Go). unfold view_label. unfold label_lhs, py_max2, py_min2, js_max, js_min.
    destruct (n_ltb mw (measure (l_size l) (l_text l))).
    - destruct So as (r & g & b & a & Eo & ->). rewrite Eo. cbn [get_colour_string set_fill x_fill x_font set_font app]. eexists _, _. split; [reflexivity|].
      exists r, g, b, a. eexists _, _. split; [reflexivity|]. split; [exists r, g, b, a; split; reflexivity|]. split; [do 4 eexists; split; reflexivity|]. reflexivity.
    - rewrite Gc. cbn [set_fill x_fill x_font set_font app]. eexists _, _. split; [reflexivity|]. exists c. split; [exact Sc|reflexivity].
  Qed.
  Lemma canvas_entity_char k (e : entity F) iw : coloured e -> exists k' ms, canvas_entity measure k (entity_to_dict (py_entity e)) iw = Some (k', ms) /\ view_shows iw e ms.
  Proof.
    destruct e as [x y c w h|x y c r lab|x y c ex ey w dashed]; cbn [coloured]; intros Hc.
    - destruct (rgba_css _ Hc) as (q & Sq & Gq). cbn -[get_colour_string]. rewrite Gq. cbn [set_fill x_fill]. eexists _, _. split; [reflexivity|]. exists q. auto.
    - destruct Hc as [Hc Hl]. destruct (rgba_css _ Hc) as (q & Sq & Gq). destruct lab as [l|].
      + cbn [py_entity]. assert (Eo : exists o, entity_to_dict (py_label l) = JObj o) by (eexists; apply label_json). destruct Eo as (o & Eo). destruct Hl as [H1 H2].
        destruct (canvas_label_char (add_path (begin_path (set_fill k (Some q))) (ArcOf x y r)) l (n_mul (n_ofZ 2) r) iw o H1 H2 Eo) as (k' & ms & Em & Sm).
        assert (Ej : entity_to_dict (YEntity (lit_str "Circle") [(lit_str "x", YNum x); (lit_str "y", YNum y); (lit_str "colour", YTuple c); (lit_str "radius", YNum r); (lit_str "label", py_label l)]) =
          JObj [(lit_str "type", JStr (lit_str "circle")); (lit_str "x", JNum x); (lit_str "y", JNum y); (lit_str "colour", JArr c); (lit_str "radius", JNum r); (lit_str "label", JObj o)]) by (rewrite <- Eo; reflexivity).
        rewrite Ej. unfold canvas_entity. cbn -[canvas_label get_colour_string]. rewrite Gq. rewrite Em. eexists _, _. split; [reflexivity|]. exists q, ms. split; [exact Sq|]. split; [reflexivity|exact Sm].
      + cbn -[get_colour_string]. rewrite Gq. eexists _, _. split; [reflexivity|]. exists q, []. auto.
    - destruct (rgba_css _ Hc) as (q & Sq & Gq). cbn -[get_colour_string]. rewrite Gq. eexists _, _. split; [reflexivity|]. exists q. auto.
  Qed.
  (** The page draws every picture of the server with proper colours: the canvas gets its size and has exactly the marks of its entities, in their
      order, whatever was on it before. *)
  Theorem C91_marks es width height : Forall coloured es -> exists cv mss, draw_graph measure (drawing_of es width height) = Some cv /\
    v_width cv = width /\ v_height cv = height /\ v_marks cv = concat mss /\ Forall2 (view_shows width) es mss.
  Proof.
    intros H. assert (G : forall k, exists mss, canvas_loop measure k (map (fun e => entity_to_dict (py_entity e)) es) width = Some (concat mss) /\ Forall2 (view_shows width) es mss).
    { induction H as [|e es He Hes IH]; intros k; [exists []; split; [reflexivity|constructor]|]. destruct (canvas_entity_char k e width He) as (k' & ms & E & S). destruct (IH k') as (mss & E' & S').
      exists (ms :: mss). cbn [map canvas_loop]. rewrite E. cbn [fst snd]. rewrite E'. split; [reflexivity|]. now constructor. }
    destruct (G fresh_ctx) as (mss & E & S). unfold draw_graph. cbn [dr_entities dr_width dr_height drawing_of]. rewrite E. eexists _, mss. split; [reflexivity|]. auto.
  Qed.
End Drawing.

(** The PNG of the same entities (C69) looks alike, if texts are equally wide: mark by mark the same shapes at the same places in the same
    colours.  Only, the canvas has no dashes, the box below an overflowing label is as high as its font and not as its text, both boxes
    being centred on the label, and the vertical position of a text is that of its middle. *)
Inductive alike : mark XR -> cmark XR -> Prop :=
| alike_disc c k x y r path : css c k -> disc x y r path -> alike (Filled c path) (CFilled k [ArcOf x y r])
| alike_rectangle c k x y w h : css c k -> alike (Filled c [RectOf x y w h]) (CFilled k [RectOf x y w h])
| alike_box c k x y w h h' : css c k ->
    alike (Filled c [RectOf x (n_sub (n_sub y (n_div h (n_ofZ 2))) (n_ofZ 5)) w (n_add h (n_ofZ 10))])
          (CFilled k [RectOf x (n_sub (n_sub y (n_div h' (n_ofZ 2))) (n_ofZ 5)) w (n_add h' (n_ofZ 10))])
| alike_line c k x y ex ey w dash : css c k -> alike (Stroked c w dash [MoveTo x y; LineTo ex ey]) (CStroked k w [MoveTo x y; LineTo ex ey])
| alike_text c k size x y y' t : css c k -> alike (Text c size x y t) (CText k size x y' t).
Section SameAsPng.
  Variable measure : XR -> pystr -> XR.
  Variable text_extents : XR -> pystr -> extents XR.
  Hypothesis Widths : forall size t, e_width (text_extents size t) = measure size t.
  Lemma two_fives : n_mul (n_ofZ 2) (n_ofZ 5) = (n_ofZ 10 : XR).
  Proof. cbn [n_mul n_ofZ XR]. cbn. f_equal; lra. Qed.
  Lemma shows_alike iw e ms ms' : PropsPng.shows text_extents iw e ms -> view_shows measure iw e ms' -> Forall2 alike ms ms'.
  Proof.
    destruct e as [x y c w h|x y c r lab|x y c ex ey w dashed]; cbn [PropsPng.shows view_shows].
    - intros -> (k & Sk & ->). constructor; [|constructor]. now constructor.
    - intros (path & rest & -> & D & Hl) (k & rest' & Sk & -> & Hl'). constructor; [now constructor|]. destruct lab as [l|]; [|subst; constructor].
      unfold shows_label in Hl. unfold view_label in Hl'. rewrite Widths in Hl. destruct (n_ltb _ _).
      + destruct Hl as (r1 & g1 & b1 & a1 & Eo & ->). destruct Hl' as (r2 & g2 & b2 & a2 & c' & c'' & Eo' & S1 & S2 & ->). rewrite Eo in Eo'. injection Eo' as <- <- <- <-. constructor; [|constructor; [now constructor|constructor]].
        rewrite two_fives. apply alike_box. exact S1.
      + destruct Hl' as (c' & S1 & ->). subst rest. constructor; [now constructor|constructor].
    - intros -> (k & Sk & ->). constructor; [|constructor]. now constructor.
  Qed.
  Theorem C91_same_as_png es width height p es' : Forall coloured es -> draw_entities text_extents es width height = Ok (p, es') ->
    exists cv, draw_graph measure (drawing_of es width height) = Some cv /\ v_width cv = p_width p /\ v_height cv = p_height p /\ Forall2 alike (p_marks p) (v_marks cv).
  Proof.
    intros H E. destruct (C91_marks measure es width height H) as (cv & mss & Ec & Ew & Eh & Em & Fm). exists cv. split; [exact Ec|]. pose proof (C69_marks text_extents es width height H) as C. destruct (_ && _)%bool; [|destruct (_ && _)%bool in C; rewrite E in C; discriminate].
    destruct C as (p' & es'' & E' & Pw & Ph & (mss' & Em' & Fm') & _). rewrite E in E'. injection E' as <- <-. split; [congruence|]. split; [congruence|]. rewrite Em, Em'. clear -Fm Fm' Widths. revert mss' Fm'.
    induction Fm as [|e ms es mss S Fm IH]; intros mss' Fm'; inversion Fm' as [|e' ms' es' mss0 S' Fm0]; subst; [constructor|]. cbn [concat]. apply Forall2_app; [exact (shows_alike _ _ _ _ S' S)|auto].
  Qed.
End SameAsPng.

(** ** C90: the animation player *)
Section Player.
  Context {F : Num}.
  Variable measure : F -> pystr -> F.
  (** a drawing the page can draw (C91) *)
  Definition proper (f : drawing F) : Prop := exists es, Forall coloured es /\ f = drawing_of es (dr_width f) (dr_height f).
  Definition on_canvas (a : animator F) (f : drawing F) : Prop := exists cv, draw_graph measure f = Some cv /\ an_canvas a = Some cv.
  (** [playing frames acts a]: the frames were loaded, and then the user did these things, each offered to them *)
  Inductive playing (frames : list (drawing F)) : list player_action -> animator F -> Prop :=
  | loaded a0 a : load measure a0 frames = Some a -> playing frames [] a
  | played acts a x a' : playing frames acts a -> player_offers a x = true -> play measure a x = Some a' -> playing frames (acts ++ [x]) a'.
  (** the frame that should be shown after an action *)
  Definition goes_to (n : Z) (cur : Z) (x : player_action) : Z :=
    match x with
    | PreviousButton => cur - 1
    | NextButton => cur + 1
    | Key code => if (code =? 37)%Z then Z.max 0 (cur - 1) else if (code =? 39)%Z then Z.min (n - 1) (cur + 1) else cur
    | Slider k => k
    end%Z.
  Definition showing (frames : list (drawing F)) (a : animator F) : Prop :=
    an_frames a = Some frames /\ (0 <= an_current a < Z.of_nat (List.length frames))%Z /\ exists f, nth_error frames (Z.to_nat (an_current a)) = Some f /\ on_canvas a f.

  Lemma proper_drawn f : proper f -> exists cv, draw_graph measure f = Some cv.
  Proof. intros (es & H & ->). destruct (C91_marks measure es (dr_width f) (dr_height f) H) as (cv & mss & E & _). exists cv. exact E. Qed.
  Lemma redraw_ok frames cur c : Forall proper frames -> (0 <= cur < Z.of_nat (List.length frames))%Z ->
    exists cv f, nth_error frames (Z.to_nat cur) = Some f /\ draw_graph measure f = Some cv /\ redraw measure (Animator (Some frames) cur c) = Some (Animator (Some frames) cur (Some cv)).
  Proof.
    intros P H. destruct (nth_error frames (Z.to_nat cur)) as [f|] eqn:E; [|apply nth_error_None in E; lia]. rewrite Forall_forall in P. destruct (proper_drawn f (P f (nth_error_In _ _ E))) as (cv & Ec).
    exists cv, f. split; [reflexivity|]. split; [exact Ec|]. unfold redraw. cbn [an_frames an_current]. destruct (Z.ltb_spec cur 0) as [L|L]; [lia|]. now rewrite E, Ec.
  Qed.
  Lemma load_ok a0 frames : Forall proper frames -> frames <> [] -> exists a, load measure a0 frames = Some a /\ showing frames a /\ an_current a = 0%Z.
  Proof.
    intros P N. assert (L : (0 <= 0 < Z.of_nat (List.length frames))%Z) by (destruct frames; [congruence|cbn; lia]). destruct (redraw_ok frames 0 (an_canvas a0) P L) as (cv & f & E & Ec & Er).
    exists (Animator (Some frames) 0 (Some cv)). split; [exact Er|]. split; [|reflexivity]. split; [reflexivity|]. split; [exact L|]. exists f. split; [exact E|]. exists cv. auto.
  Qed.
  Lemma play_ok frames a x : Forall proper frames -> showing frames a -> player_offers a x = true ->
    exists a', play measure a x = Some a' /\ showing frames a' /\ an_current a' = goes_to (Z.of_nat (List.length frames)) (an_current a) x.
  Proof.
    intros P (Ef & Hc & f & En & On) O. unfold player_offers in O. rewrite Ef in O.
    assert (Set' : forall z cur, z = Z.max 0 (Z.min cur (Z.of_nat (List.length frames) - 1)) -> exists a', set_frame measure a cur = Some a' /\ showing frames a' /\ an_current a' = z).
    { intros z cur ->. unfold set_frame. rewrite Ef. set (z := Z.max 0 _). assert (Hz : (0 <= z < Z.of_nat (List.length frames))%Z) by lia. destruct (redraw_ok frames z (an_canvas a) P Hz) as (cv & g & E & Ec & Er). rewrite Er.
      eexists. split; [reflexivity|]. split; [|reflexivity]. split; [reflexivity|]. split; [exact Hz|]. exists g. split; [exact E|]. exists cv. auto. }
    destruct x as [| |code|k]; cbn [play goes_to].
    - apply Bool.negb_true_iff, Z.eqb_neq in O. apply Set'. lia.
    - apply Bool.negb_true_iff, Z.eqb_neq in O. apply Set'. lia.
    - destruct (Z.eqb_spec code 37); [apply Set'; lia|]. destruct (Z.eqb_spec code 39); [apply Set'; lia|]. exists a. split; [reflexivity|]. split; [|reflexivity]. split; [exact Ef|]. split; [exact Hc|]. exists f. auto.
    - apply andb_prop in O. destruct O as [O1 O2]. apply Z.leb_le in O1, O2. rewrite Ef. destruct (redraw_ok frames k (an_canvas a) P ltac:(lia)) as (cv & g & E & Ec & Er). rewrite Er.
      eexists. split; [reflexivity|]. split; [|reflexivity]. split; [reflexivity|]. split; [cbn; lia|]. exists g. split; [exact E|]. exists cv. auto.
  Qed.
  (** With at least one frame: loading works; after any sequence of actions the number shown is that of a frame and the canvas shows this
      frame; nothing offered fails, and it goes where it should. *)
  Theorem C90_player frames : Forall proper frames -> frames <> [] -> (forall a0, exists a, load measure a0 frames = Some a /\ an_current a = 0%Z) /\
    forall acts a, playing frames acts a -> showing frames a /\
      forall x, player_offers a x = true -> exists a', play measure a x = Some a' /\ an_current a' = goes_to (Z.of_nat (List.length frames)) (an_current a) x.
  Proof.
    intros P N. split; [intros a0; destruct (load_ok a0 frames P N) as (a & E & _ & C); eauto|]. intros acts a H.
    assert (Sh : showing frames a).
    { induction H as [a0 a E|acts a x a' H IH O E].
      - destruct (load_ok a0 frames P N) as (a1 & E1 & S1 & _). rewrite E in E1. injection E1 as ->. exact S1.
      - destruct (play_ok frames a x P IH O) as (a1 & E1 & S1 & _). rewrite E in E1. injection E1 as ->. exact S1. }
    split; [exact Sh|]. intros x O. destruct (play_ok frames a x P Sh O) as (a' & E & _ & C). eauto.
  Qed.
  (** so k presses of the right arrow key after loading show frame k, or the last one *)
  Theorem C90_right_key frames a k : Forall proper frames -> frames <> [] -> playing frames (repeat (Key 39) k) a -> an_current a = Z.of_nat (Nat.min k (List.length frames - 1)).
  Proof.
    intros P N. destruct (C90_player frames P N) as [_ Pl]. assert (Hl : 1 <= List.length frames) by (destruct frames; [congruence|cbn; lia]). revert a. induction k as [|k IH]; intros a H.
    - inversion H as [a0 a1 E|acts a1 x a2 H1 O E Q]; subst; [|destruct acts; discriminate]. destruct (load_ok a0 frames P N) as (a1 & E1 & _ & C1). rewrite E in E1. injection E1 as ->. exact C1.
    - inversion H as [a0 a1 E Q|acts a1 x a2 H1 O E Q]; subst; cbn [repeat] in Q. assert (Er : forall n, repeat (Key 39) (S n) = repeat (Key 39) n ++ [Key 39]) by (induction n as [|n IHn]; [reflexivity|cbn [repeat app] in *; now rewrite IHn at 1]).
      change (Key 39 :: repeat (Key 39) k) with (repeat (Key 39) (S k)) in Q. rewrite Er in Q. apply app_inj_tail in Q. destruct Q as [-> ->]. destruct (Pl _ _ H1) as [_ G]. destruct (G _ O) as (a' & E' & C'). rewrite E in E'. injection E' as <-. rewrite C'. assert (Eg : forall n c, goes_to n c (Key 39) = Z.min (n - 1) (c + 1)) by reflexivity. rewrite Eg, (IH _ H1). lia.
  Qed.
  (** before anything is loaded the player is not shown, and the keys do nothing; an animation without frames is an exception *)
  Theorem C90_no_frames a0 : load measure a0 [] = None /\ (forall x, player_offers (new_animator (F:=F)) x = false) /\
    (forall code, play measure (new_animator (F:=F)) (Key code) = Some new_animator).
  Proof. split; [reflexivity|]. split; [reflexivity|]. intros code. cbn. destruct (code =? 37)%Z; [reflexivity|]. destruct (code =? 39)%Z; reflexivity. Qed.
End Player.

(** C90: an answer of the server, displayed *)
Lemma frame_proper {S V W LS LV : Type} {ES : Eqb S} {EV : Eqb V} {EW : Eqb W} {EL : Eqb LV} {F : Num} {FOK : NumOK F} src_tuple T sz (nm : naming S V W LS LV) b impf ts (d : dataset S V W F) r p g :
  build b impf ts = Ok d -> frame src_tuple T sz nm d r p = Ok g -> proper g.
Proof.
  intros Hb E. unfold frame, render in E. cbn [rs_colours] in E. set (st0 := RState (Some (get_height sz d)) (GradientScheme r)) in *.
  pose proof (fun n e => C51_bad_colour src_tuple T sz nm b impf ts d Hb st0 p n e) as Bad. pose proof (fun cols => C51_contents src_tuple T sz nm b impf ts d Hb st0 p cols) as Con.
  destruct (compile src_tuple T sz nm st0 d p) as [st' [es|e]]; cbn [snd bind] in E, Bad, Con; [|discriminate]. injection E as <-.
  set (cols := fun n => match get_node_colour src_tuple (rs_colours st0) n with Ok c => c | Err _ => ([], [], []) end).
  assert (AllC : forall n, graph_node ts n -> get_node_colour src_tuple (rs_colours st0) n = Ok (cols n)).
  { intros n Hn. unfold cols. destruct (get_node_colour src_tuple (rs_colours st0) n) as [c|e] eqn:En; [reflexivity|]. destruct (Bad n e Hn En) as [e' Q]. discriminate. }
  destruct (Con cols AllC) as (P & height & Ees). injection Ees as ->. eexists. split; [exact (picture_coloured src_tuple T sz nm ts st0 cols P height p AllC)|reflexivity].
Qed.

Section Displayed.
  Context {C W : Type} {EW : Eqb W} {F : Num} {FOK : NumOK F}.
  Variable parse : pystr -> option (option C).
  Variable label : C -> W.
  Variable pfloat : pystr -> option F.
  Variable decimal : pychar -> option N.
  Hypothesis DEC : decimal_ok decimal.
  Variable ord : list pystr -> list pystr.
  Hypothesis Ord : forall l, Permutation.Permutation l (ord l).
  Variable ltw : W -> W -> bool.
  Variable rnd : nat -> nat.
  Hypothesis irrefl : forall x : F, n_ltb x x = false.
  Variable T : trig F.
  Variable show_nat : nat -> pystr.
  Variable show_w : W -> pystr.
  Variable loads : pystr -> option (jval (F:=F)).
  Variable oset : list pystr -> list pystr.
  Hypothesis Oset : forall l, Permutation.Permutation (oset l) l.
  Hypothesis show_nat_inj : forall a b, show_nat a = show_nat b -> a = b.
  Hypothesis show_w_inj : forall a b, show_w a = show_w b -> a = b.
  Variable measure : F -> pystr -> F.
  Variable for_in : list pystr -> list pystr.
  Variables (clocks : nat -> nat -> F) (fuel : nat).
  Notation web_run := (web_run parse label pfloat decimal ord ltw rnd T show_nat show_w loads oset clocks fuel).
  Notation entry := (web_entry (W:=W) (F:=F)).
  Notation show_answer := (show_answer measure for_in show_nat show_w).

  (** *** Specification *)
  Definition reports_iterations (e : entry) (n : nat) : Prop := dget (we_fields e) FIterations = Some (VIterations (Some n)).
  (** the dataset asked about *)
  Definition asks_about (q : request) (d : dataset nat nat W F) : Prop :=
    exists text text' m, q_matrix q = Some text /\ no_underscores text text' /\ csv_to_masked_array parse text' = Ok m /\ matrix_dataset label false None m = Ok d.
  (** [f] is the drawing of the scores after n rounds of the algorithm asked for *)
  Definition of_round (q : request) (d : dataset nat nat W F) (l : pystr) (n : nat) (f : drawing F) : Prop :=
    exists lines items c a p it (lg : option (list (result nat nat W F))), parameter_lines q lines /\ Forall2 (fun s it => algorithm_parameter pfloat decimal s = Ok it) lines items /\ In (l, c) label_table /\
      requested c (dict_of items) = Some (OIterative (AObj a p it lg : aobj nat nat W F)) /\
      forall clock fuel, n < fuel -> exists r, fst (run clock fuel (AObj a p (IFixed (Z.of_nat n) 0) None) d) = Ok r /\ drawn T show_nat show_w d r f.
  (** the rows of a table are these, and the names are different *)
  Definition lists (t : table F) (rows : list (pystr * F)) : Prop := Permutation.Permutation (tb_rows t) rows /\ NoDup (map fst rows).

  (** *** Proofs *)
  Lemma answered_with q data ms : web_run q = R200 data ms ->
    exists lines items m (d : dataset nat nat W F), parameter_lines q lines /\ Forall2 (fun s it => algorithm_parameter pfloat decimal s = Ok it) lines items /\ asks_about q d /\ build false None (get_triples label m) = Ok d /\
      response_spec ltw rnd T show_nat show_w loads clocks fuel (get_triples label m) d (dict_of items) (q_previous q) (q_algorithm q) (R200 data ms).
  Proof.
    intros E. destruct (C48_run parse label pfloat decimal DEC ord Ord ltw rnd irrefl T show_nat show_w loads oset Oset show_nat_inj show_w_inj clocks fuel q) as [A1 A2]. rewrite E in A1, A2.
    assert (K : exists text, q_algorithm q <> [] /\ q_matrix q = Some text /\ text <> []).
    { destruct (q_algorithm q); [discriminate (A1 (or_introl eq_refl))|]. destruct (q_matrix q) as [[|c t]|]; [discriminate A1; auto| |discriminate A1; auto]. exists (c :: t). repeat split; discriminate. }
    destruct K as (text & K1 & K2 & K3). destruct (A2 text K1 K2 K3) as (lines & Hl & [(b & li & af & e & _ & _ & _ & Q)|(items & Hi & text' & Ht & Q)]); [discriminate|].
    destruct (csv_to_masked_array parse text') as [m|e] eqn:Em; [|discriminate]. destruct Q as (d & Ed & Q). exists lines, items, m, d. split; [exact Hl|]. split; [exact Hi|]. split; [exists text, text', m; auto|]. split; [exact Ed|exact Q].
  Qed.
  (** The frames of an animation: one for the start and one per round, except for "crh", which has none for the start.  So frame j, which the
      page calls "Iteration j", shows the scores after j rounds; with "crh" those after j + 1 rounds. *)
  Theorem C90_frames q data ms l e : web_run q = R200 data ms -> dget data l = Some e -> proper (we_graph e) /\
    match we_animation e with
    | None => l = lit_str "voting"
    | Some (_, frames) => Forall proper frames /\ (exists n, reports_iterations e n /\ List.length frames = if beq l (lit_str "crh") then n else S n) /\
        (l <> lit_str "usums" -> exists d, asks_about q d /\ forall j f, nth_error frames j = Some f -> of_round q d l (if beq l (lit_str "crh") then S j else j) f)
    end.
  Proof.
    intros E He. destruct (answered_with _ _ _ E) as (lines & items & m & d & PL & FA & AB & Ed & Q).
    destruct Q as (_ & _ & _ & Q & _). destruct (Q _ _ He) as (i & _ & _ & En). clear Q. set (ps := dict_of items) in *.
    destruct En as (c & r & Tl & (o & Ro & Er) & Hf & Dr & An & _). split; [exact (frame_proper _ _ _ _ _ _ _ _ _ _ _ Ed Dr)|].
    destruct (we_animation e) as [[fps frames]|].
    2:{ subst c. cbn [In label_table] in Tl. repeat (destruct Tl as [Tl|Tl]; [try (exfalso; congruence); congruence|]). destruct Tl. }
    destruct An as (_ & rs & (o2 & Ro2 & Eri) & Dw). rewrite Ro in Ro2. injection Ro2 as ->. split.
    { clear -Dw Ed FOK. induction Dw as [|x f xs fs Dx Dw IH]; constructor; [exact (frame_proper _ _ _ _ _ _ _ _ _ _ _ Ed Dx)|exact IH]. }
    assert (Ri : dget (we_fields e) FIterations = Some (VIterations (r_iterations r))).
    { specialize (Hf FIterations). destruct (dget (we_fields e) FIterations) as [v|]; [cbn [field_value] in Hf; now subst v|discriminate]. }
    unfold reports_iterations. rewrite Ri. assert (Lf : List.length frames = List.length rs) by (clear -Dw; induction Dw; cbn; congruence). rewrite Lf.
    assert (Nf : forall j f, nth_error frames j = Some f -> exists z, nth_error rs j = Some z /\ drawn T show_nat show_w d z f).
    { clear -Dw. induction Dw as [|x f xs fs Dx Dw IH]; intros j g H; [destruct j; discriminate|]. destruct j as [|j]; [injection H as <-; exists x; auto|]. exact (IH j g H). }
    assert (Er' : fst (run (clocks (2 * i)) fuel o2 d) = Ok r) by (unfold crun in Er; destruct (run (clocks (2 * i)) fuel o2 d) as [r1 o1]; cbn [fst] in *; congruence).
    destruct o2 as [a p it lg].
    assert (Same : forall j f n, nth_error frames j = Some f -> (forall z, nth_error rs j = Some z -> forall clock'' fuel'', n < fuel'' -> exists rj, fst (run clock'' fuel'' (AObj a p (IFixed (Z.of_nat n) 0) None) d) = Ok rj /\ same_but_time z rj) ->
      of_round q d l n f).
    { intros j f n Hn H. destruct (Nf j f Hn) as (z & Hz & Dz). exists lines, items, c, a, p, it, lg. split; [exact PL|]. split; [exact FA|]. split; [exact Tl|]. split; [exact Ro|]. intros clock fu Hfu. destruct (H z Hz clock fu Hfu) as (rj & Ej & Sj).
      exists rj. split; [exact Ej|]. unfold drawn in *. rewrite <- Dz. symmetry. apply frame_same. exact Sj. }
    clear Hf Dr Dw Ri Er Nf. assert (K : (c = CCRH /\ exists eps, a = CRH eps) \/ c <> CCRH /\ (a = UnboundedSums /\ c = CUnboundedSums \/ plain a)).
    { destruct c; cbn [requested] in Ro; try discriminate; injection Ro as <- <- <- <-; try (right; split; [discriminate|right; exact I]); [right; split; [discriminate|now left]|left; eauto]. }
    assert (El : beq l (lit_str "crh") = match c with CCRH => true | _ => false end /\ (c = CUnboundedSums -> l = lit_str "usums")).
    { cbn [In label_table] in Tl. repeat (destruct Tl as [Tl|Tl]; [injection Tl as <- <-; split; [reflexivity|intros Q; try discriminate Q; reflexivity]|]). destruct Tl. }
    destruct El as [El Eu]. rewrite El. destruct K as [[-> (eps & ->)]|[Nc K]].
    - pose proof (C29_crh false None _ d Ed (clocks (2 * i)) (clocks (2 * i + 1)) fuel eps p it lg lg) as Q. rewrite Er', Eri in Q. destruct Q as (k & -> & Lk & Cj & _). split; [exists k; auto|]. intros _. exists d. split; [exact AB|].
      intros j f Hn. apply (Same j f (S j) Hn). intros z Hz. exact (proj2 (Cj j z Hz)).
    - assert (Ec : forall A (x y : A), match c with CCRH => x | _ => y end = y) by (intros A x y; destruct c; congruence). assert (Ec' : match c with CCRH => true | _ => false end = false) by apply Ec. rewrite Ec'. destruct K as [[-> ->]|K].
      + pose proof (C29_unbounded_sums false None _ d Ed (clocks (2 * i)) (clocks (2 * i + 1)) fuel p it lg lg) as Q. rewrite Er', Eri in Q. destruct Q as (k & vt & vb & rt & rb & z & -> & -> & _). split; [exists k; auto|]. intros N. exfalso. exact (N (Eu eq_refl)).
      + pose proof (C29_partial_results false None _ d Ed (clocks (2 * i)) (clocks (2 * i + 1)) fuel a p it lg lg K) as Q. rewrite Er', Eri in Q. destruct Q as (k & -> & Lk & _ & Cj). split; [exists k; auto|]. intros _. exists d. split; [exact AB|].
        intros j f Hn. apply (Same j f j Hn). intros z Hz. assert (Hj : j <= k) by (assert (nth_error rs j <> None) by congruence; apply nth_error_Some in H; lia). destruct (Cj j Hj) as (z' & Ez & _ & H). rewrite Hz in Ez. injection Ez as <-. exact H.
  Qed.

  (** one label after the other *)
  Definition good (e : entry) : Prop := proper (we_graph e) /\ match we_animation e with None => True | Some (_, frames) => Forall proper frames /\ frames <> [] end.
  Definition tables_of (e : entry) := (make_table for_in (trust_object show_nat e), map (fun p => (fst p, make_table for_in (snd p))) (belief_object show_nat show_w e)).
  Definition displays (before : shown F) (e : entry) (s : shown F) : Prop :=
    (exists cv, draw_graph measure (we_graph e) = Some cv /\ sh_graph s = Some cv) /\ sh_tables s = Some (tables_of e) /\
    match we_animation e with None => sh_animator s = sh_animator before | Some (_, frames) => playing measure frames [] (sh_animator s) end.
  Lemma show_good (v : view F) l e : good e -> exists s, show_entry measure for_in show_nat show_w v l e = (set_shown v l s, false) /\ displays (v l) e s.
  Proof.
    intros [Pg Pa]. destruct (proper_drawn measure _ Pg) as (cv & Ec). unfold show_entry. rewrite Ec. unfold displays. destruct (we_animation e) as [[fps frames]|].
    - destruct Pa as [Pf Nf]. destruct (load_ok measure (sh_animator (v l)) frames Pf Nf) as (a & Ea & _ & _). rewrite Ea. eexists. split; [reflexivity|]. split; [exists cv; auto|]. split; [reflexivity|]. exact (loaded measure frames _ a Ea).
    - eexists. split; [reflexivity|]. split; [exists cv; auto|]. split; reflexivity.
  Qed.
  Lemma show_goods (data : list (pystr * entry)) : NoDup (map fst data) -> (forall l e, In (l, e) data -> good e) -> forall v : view F, exists v', show_entries measure for_in show_nat show_w v data = (v', false) /\
    (forall l e, In (l, e) data -> displays (v l) e (v' l)) /\ forall l, ~ In l (map fst data) -> v' l = v l.
  Proof.
    induction data as [|[l e] data IH]; intros ND G v; [exists v; split; [reflexivity|]; split; [intros ? ? []|reflexivity]|]. cbn [map fst] in ND. inversion ND as [|l' ls Nl ND']; subst.
    destruct (show_good v l e (G l e (or_introl eq_refl))) as (s & Es & Ds). cbn [show_entries]. rewrite Es. destruct (IH ND' (fun l' e' H => G l' e' (or_intror H)) (set_shown v l s)) as (v' & E' & D' & O').
    exists v'. split; [exact E'|]. split.
    - intros l' e' [Q|H].
      + injection Q as <- <-. rewrite O' by exact Nl. unfold set_shown. rewrite beq_refl. exact Ds.
      + assert (N : l' <> l) by (intros ->; apply Nl; exact (in_map fst _ _ H)). specialize (D' l' e' H). unfold set_shown at 1 in D'. assert (B : beq l' l = false) by (apply beq_neq; exact N). rewrite B in D'. exact D'.
    - intros l' N. cbn [map fst In] in N. rewrite O' by tauto. unfold set_shown. assert (B : beq l' l = false) by (apply beq_neq; intros ->; tauto). now rewrite B.
  Qed.
  Lemma show_app (d1 d2 : list (pystr * entry)) : forall v v' : view F, show_entries measure for_in show_nat show_w v d1 = (v', false) ->
    show_entries measure for_in show_nat show_w v (d1 ++ d2) = show_entries measure for_in show_nat show_w v' d2.
  Proof.
    induction d1 as [|[l e] d1 IH]; intros v v' H; [cbn in H; injection H as <-; reflexivity|]. cbn [show_entries app] in *. destruct (show_entry measure for_in show_nat show_w v l e) as [v1 [|]]; [discriminate|]. exact (IH _ _ H).
  Qed.
  (** the entries of an answer are good, if "crh" is not among them with no rounds *)
  Lemma answer_good q data ms l e : web_run q = R200 data ms -> dget data l = Some e -> ~ (l = lit_str "crh" /\ reports_iterations e 0) -> good e.
  Proof.
    intros E He N. destruct (C90_frames q data ms l e E He) as [Pg An]. split; [exact Pg|]. destruct (we_animation e) as [[fps frames]|]; [|exact I]. destruct An as (Pf & (n & Rn & Ln) & _). split; [exact Pf|].
    intros ->. cbn [List.length] in Ln. destruct (beq l (lit_str "crh")) eqn:B; [|discriminate]. apply N. split; [now apply beq_eq|]. now subst n.
  Qed.
  Lemma answer_distinct q data ms : web_run q = R200 data ms -> NoDup (dkeys data).
  Proof. intros E. destruct (answered_with _ _ _ E) as (lines & items & m & d & _ & _ & _ & _ & Q). exact (proj1 (proj2 Q)). Qed.
  Hypothesis For_in : forall l, NoDup l -> Permutation.Permutation (for_in l) l.
  Lemma table_lists (scores : dict pystr F) : NoDup (dkeys scores) -> lists (make_table for_in scores) scores.
  Proof.
    intros ND. split; [|exact ND]. cbn [make_table tb_rows]. rewrite (Permutation.Permutation_flat_map _ (For_in _ ND)).
    assert (G : forall l : dict pystr F, incl l scores -> flat_map (fun k => match dget scores k with Some x => [(k, x)] | None => [] end) (dkeys l) = l).
    { induction l as [|[k x] l IH]; intros Hi; [reflexivity|]. cbn [dkeys map fst flat_map]. assert (Ek : dget scores k = Some x) by (apply In_dget; [exact ND|apply Hi; now left]). rewrite Ek. cbn [app]. f_equal. apply IH. intros y Hy. apply Hi. now right. }
    rewrite (G scores (incl_refl _)). reflexivity.
  Qed.
  Lemma NoDup_map_inj {A B} (f : A -> B) (l : list A) : (forall a b, f a = f b -> a = b) -> NoDup l -> NoDup (map f l).
  Proof. intros Inj. induction 1 as [|x l N ND IH]; cbn; constructor; [|exact IH]. intros H. apply in_map_iff in H. destruct H as (y & E & Hy). apply Inj in E. subst y. contradiction. Qed.
  Lemma answer_tables q data ms l e : web_run q = R200 data ms -> dget data l = Some e ->
    exists trust belief tt bs, dget (we_fields e) FTrust = Some (VTrust trust) /\ dget (we_fields e) FBelief = Some (VBelief belief) /\ tables_of e = (tt, bs) /\
      lists tt (map (fun p => (show_nat (fst p), snd p)) trust) /\
      Forall2 (fun p b => fst b = show_nat (fst p) /\ lists (snd b) (map (fun q => (show_w (fst q), snd q)) (snd p))) belief bs.
  Proof.
    intros E He. destruct (answered_with _ _ _ E) as (lines & items & m & d & _ & _ & _ & Ed & Q).
    destruct Q as (_ & _ & _ & Q & _). destruct (Q _ _ He) as (i & _ & _ & (c & r & Tl & (o & Ro & Er) & Hf & _)).
    assert (Fu : full_scores (get_triples label m) r) by (destruct (crun (clocks (2 * i)) fuel o d) as [r0 o0] eqn:Eo; cbn [fst] in Er; subst r0; exact (crun_full false None _ d _ _ _ _ _ Ed Eo)).
    destruct (full_distinct _ _ Fu) as (D1 & D2 & D3).
    assert (E1 : dget (we_fields e) FTrust = Some (VTrust (r_trust r))) by (specialize (Hf FTrust); destruct (dget (we_fields e) FTrust); [cbn [field_value] in Hf; congruence|discriminate]).
    assert (E2 : dget (we_fields e) FBelief = Some (VBelief (r_belief r))) by (specialize (Hf FBelief); destruct (dget (we_fields e) FBelief); [cbn [field_value] in Hf; congruence|discriminate]).
    exists (r_trust r), (r_belief r). unfold tables_of, trust_object, belief_object. rewrite E1, E2. eexists _, _. split; [reflexivity|]. split; [reflexivity|]. split; [reflexivity|]. split.
    - apply table_lists. unfold dkeys. rewrite map_map. cbn [fst]. rewrite <- (map_map fst show_nat). apply NoDup_map_inj; [exact show_nat_inj|exact D1].
    - assert (G : forall x mm, In (x, mm) (r_belief r) -> NoDup (dkeys mm)) by (intros x mm Hx; apply (D3 x mm), In_dget; assumption). clear -G For_in show_w_inj. induction (r_belief r) as [|[x mm] l IH]; cbn [map]; constructor.
      + cbn [fst snd]. split; [reflexivity|]. apply table_lists. unfold dkeys. rewrite map_map. cbn [fst]. rewrite <- (map_map fst show_w). apply NoDup_map_inj; [exact show_w_inj|]. exact (G x mm (or_introl eq_refl)).
      + apply IH. intros x' m' H. exact (G x' m' (or_intror H)).
  Qed.
  (** An answer with results is displayed without an exception, unless "crh" made no rounds: each algorithm gets the drawing of its results, the
      player with its animation at the first frame, a table of the trust scores and one of the belief scores for each variable. *)
  Theorem C90_displayed q data ms (v : view F) : web_run q = R200 data ms -> (forall e, dget data (lit_str "crh") = Some e -> ~ reports_iterations e 0) ->
    exists v', show_answer v data = (v', false) /\ forall l e, dget data l = Some e ->
      (exists cv, draw_graph measure (we_graph e) = Some cv /\ sh_graph (v' l) = Some cv) /\
      match we_animation e with None => sh_animator (v' l) = sh_animator (v l) | Some (_, frames) => playing measure frames [] (sh_animator (v' l)) /\ an_current (sh_animator (v' l)) = 0%Z /\ showing measure frames (sh_animator (v' l)) end /\
      exists trust belief tt bs, dget (we_fields e) FTrust = Some (VTrust trust) /\ dget (we_fields e) FBelief = Some (VBelief belief) /\ sh_tables (v' l) = Some (tt, bs) /\
        lists tt (map (fun p => (show_nat (fst p), snd p)) trust) /\
        Forall2 (fun p b => fst b = show_nat (fst p) /\ lists (snd b) (map (fun q => (show_w (fst q), snd q)) (snd p))) belief bs.
  Proof.
    intros E N. pose proof (answer_distinct _ _ _ E) as ND.
    assert (G : forall l e, In (l, e) data -> good e) by (intros l e H; apply (In_dget _ _ _ ND) in H; apply (answer_good q data ms l e E H); intros [-> Q]; exact (N e H Q)).
    destruct (show_goods data ND G (fun l => Shown (sh_graph (v l)) (sh_animator (v l)) None)) as (v' & Es & D & _). exists v'. split; [exact Es|]. intros l e He. assert (Hi : In (l, e) data) by exact (dget_In _ _ _ He).
    destruct (D l e Hi) as (Dg & Dt & Da). destruct (answer_tables q data ms l e E He) as (trust & belief & tt & bs & E1 & E2 & E3 & L1 & L2). split; [exact Dg|]. split.
    - specialize (G l e Hi). destruct G as [_ G]. destruct (we_animation e) as [[fps frames]|]; [|exact Da]. destruct G as [Pf Nf]. split; [exact Da|]. split; [|exact (proj1 (proj2 (C90_player measure frames Pf Nf) _ _ Da))].
      exact (C90_right_key measure frames _ 0 Pf Nf Da).
    - exists trust, belief, tt, bs. rewrite Dt, E3. auto.
  Qed.
  (** With "crh" and no rounds there is an exception: its drawing is shown, but its player has no frames (an arrow key is an exception
      too), and its tables and those of the algorithms after it, whose drawings stay as they were, are missing.  The algorithms before it
      are displayed. *)
  Theorem C90_crh_zero q data ms e (v : view F) : web_run q = R200 data ms -> dget data (lit_str "crh") = Some e -> reports_iterations e 0 ->
    exists v' d1 d2, show_answer v data = (v', true) /\ data = d1 ++ (lit_str "crh", e) :: d2 /\
      (sh_tables (v' (lit_str "crh")) = None /\ (exists cv, draw_graph measure (we_graph e) = Some cv /\ sh_graph (v' (lit_str "crh")) = Some cv) /\
       an_frames (sh_animator (v' (lit_str "crh"))) = Some [] /\ an_canvas (sh_animator (v' (lit_str "crh"))) = an_canvas (sh_animator (v (lit_str "crh"))) /\
       forall code, (code = 37 \/ code = 39)%Z -> play measure (sh_animator (v' (lit_str "crh"))) (Key code) = None) /\
      (forall l e', In (l, e') d1 -> displays (v l) e' (v' l)) /\
      (forall l, In l (dkeys d2) -> sh_graph (v' l) = sh_graph (v l) /\ sh_animator (v' l) = sh_animator (v l) /\ sh_tables (v' l) = None).
  Proof.
    intros E He R0. pose proof (answer_distinct _ _ _ E) as ND. assert (Hi : In (lit_str "crh", e) data) by exact (dget_In _ _ _ He). destruct (in_split _ _ Hi) as (d1 & d2 & Ed).
    assert (An : exists fps, we_animation e = Some (fps, [])).
    { destruct (C90_frames q data ms _ e E He) as [_ A]. destruct (we_animation e) as [[fps frames]|]; [|discriminate A]. destruct A as (_ & (n & Rn & Ln) & _). unfold reports_iterations in R0, Rn. rewrite R0 in Rn. injection Rn as <-. rewrite beq_refl in Ln. destruct frames; [eauto|discriminate]. }
    destruct An as (fps & An). destruct (C90_frames q data ms _ e E He) as [Pg _]. destruct (proper_drawn measure _ Pg) as (cv & Ec).
    assert (Kd : dkeys data = map fst d1 ++ lit_str "crh" :: map fst d2) by (rewrite Ed; unfold dkeys; rewrite map_app; reflexivity). pose proof ND as ND0. rewrite Kd in ND0.
    assert (G : forall l e', In (l, e') d1 -> good e').
    { intros l e' H. assert (H' : dget data l = Some e') by (apply In_dget; [exact ND|]; rewrite Ed; apply in_or_app; now left). apply (answer_good q data ms l e' E H'). intros [-> _]. apply NoDup_remove_2 in ND0. apply ND0, in_or_app. left. exact (in_map fst _ _ H). }
    assert (ND1 : NoDup (map fst d1)) by (clear -ND0; induction (map fst d1) as [|y l IH]; [constructor|]; cbn [app] in ND0; inversion ND0 as [|y' l' N1 N2]; subst; constructor; [intros H; apply N1, in_or_app; now left|exact (IH N2)]).
    destruct (show_goods d1 ND1 G (fun l => Shown (sh_graph (v l)) (sh_animator (v l)) None)) as (v1 & E1 & D1 & O1).
    unfold WebView.show_answer. rewrite Ed. rewrite (show_app d1 _ _ _ E1). cbn [show_entries]. unfold show_entry. rewrite Ec, An. cbn [load redraw an_frames an_current Z.ltb Z.compare Z.to_nat nth_error].
    eexists _, d1, d2. split; [reflexivity|]. split; [reflexivity|]. apply NoDup_remove_2 in ND0 as N0.
    assert (Oc : v1 (lit_str "crh") = Shown (sh_graph (v (lit_str "crh"))) (sh_animator (v (lit_str "crh"))) None) by (rewrite O1; [reflexivity|]; intros H; apply N0, in_or_app; now left).
    split; [|split].
    - unfold set_shown. rewrite beq_refl. cbn [sh_tables sh_graph sh_animator an_frames an_canvas]. rewrite Oc. cbn [sh_tables sh_animator]. split; [reflexivity|]. split; [exists cv; auto|]. split; [reflexivity|]. split; [reflexivity|].
      intros code [-> | ->]; reflexivity.
    - intros l e' Hl. assert (Nl : l <> lit_str "crh") by (intros ->; apply N0, in_or_app; left; exact (in_map fst _ _ Hl)). unfold set_shown. assert (B : beq l (lit_str "crh") = false) by (apply beq_neq; exact Nl). rewrite B.
      exact (D1 l e' Hl).
    - intros l Hl. assert (Nl : l <> lit_str "crh") by (intros ->; apply N0, in_or_app; right; exact Hl). unfold set_shown. assert (B : beq l (lit_str "crh") = false) by (apply beq_neq; exact Nl). rewrite B.
      rewrite O1; [repeat split|]. intros H1. apply in_split in Hl. destruct Hl as (k1 & k2 & Ek). unfold dkeys in Ek. rewrite Ek in ND0. rewrite app_comm_cons, app_assoc in ND0. apply NoDup_remove_2 in ND0. apply ND0. apply in_or_app. left. apply in_or_app. now left.
  Qed.
End Displayed.

(** ** C92: the tables *)
(** sorting, once more: stability *)
Section Stable.
  Context {A : Type} (lt : A -> A -> bool).
  Lemma insert_stable p x l : strict_weak lt -> (forall a b, p a = true -> p b = true -> lt a b = false) -> filter p (insert_by lt x l) = filter p (x :: l).
  Proof.
    intros SW P. induction l as [|y l IH]; [reflexivity|]. cbn [insert_by]. destruct (lt y x) eqn:E; [|reflexivity]. cbn [filter] in *. rewrite IH. destruct (p y) eqn:Py, (p x) eqn:Px; try reflexivity.
    rewrite (P y x Py Px) in E. discriminate.
  Qed.
  Lemma sort_stable p l : strict_weak lt -> (forall a b, p a = true -> p b = true -> lt a b = false) -> filter p (sort_with lt l) = filter p l.
  Proof. intros SW P. induction l as [|x l IH]; [reflexivity|]. cbn [sort_with fold_right]. fold (sort_with lt l). rewrite insert_stable by assumption. cbn [filter]. now rewrite IH. Qed.
  Lemma sort_map {B} (f : B -> A) lt' l : (forall a b, lt (f a) (f b) = lt' a b) -> sort_with lt (map f l) = map f (sort_with lt' l).
  Proof.
    intros H. induction l as [|x l IH]; [reflexivity|]. cbn [map sort_with fold_right]. fold (sort_with lt (map f l)) (sort_with lt' l). rewrite IH. clear IH. induction (sort_with lt' l) as [|y t IH]; [reflexivity|].
    cbn [map insert_by]. rewrite H. destruct (lt' y x); [cbn [map]; now rewrite IH|reflexivity].
  Qed.
End Stable.
Section Tables.
  Variable for_in : list pystr -> list pystr.
  Hypothesis For_in : forall l, NoDup l -> Permutation.Permutation (for_in l) l.
  (** *** Specification *)
  (** scores that are numbers *)
  Definition fin (rows : list (pystr * R)) : list (pystr * XR) := map (fun r => (fst r, Fin (snd r) : XR)) rows.
  (** the columns in increasing order *)
  Definition column_le (col : column) (a b : pystr * R) : Prop := match col with ByName => str_ltb (lower (fst b)) (lower (fst a)) = false | ByScore => (snd a <= snd b)%R end.
  (** rows that are equal in a column *)
  Definition column_same (col : column) (a b : pystr * R) : Prop := match col with ByName => lower (fst a) = lower (fst b) | ByScore => snd a = snd b end.
  (** [rows'] are the rows sorted: in the order asked for, and rows equal in the column in the order they had *)
  Definition sorts (asc : bool) (col : column) (rows rows' : list (pystr * R)) : Prop :=
    Permutation.Permutation rows' rows /\ Sorted.StronglySorted (fun a b => if asc then column_le col a b else column_le col b a) rows' /\
    forall p, (forall a b, p a = true -> p b = true -> column_same col a b) -> filter p rows' = filter p rows.

  (** *** Proofs *)
  Lemma max_fin (l : list R) (m : R) : exists m', fold_left js_max (map (fun x => Fin x : XR) l) (Fin m : XR) = (Fin m' : XR) /\ (m <= m')%R /\ (forall x, In x l -> (x <= m')%R) /\ (m' = m \/ In m' l).
  Proof.
    revert m. induction l as [|x l IH]; intros m; [exists m; cbn; repeat split; [lra|intros ? []|now left]|]. cbn [map fold_left].
    assert (J : js_max (F:=XR) (Fin m) (Fin x) = Fin (Rmax m x)).
    { unfold js_max. change (@n_ltb XR (Fin m) (Fin x)) with (rltb m x). unfold Rmax. destruct (rltb_spec m x), (Rle_dec m x); f_equal; lra. }
    rewrite J. destruct (IH (Rmax m x)) as (m' & E & L & A & O). exists m'. split; [exact E|]. pose proof (Rmax_l m x). pose proof (Rmax_r m x). split; [lra|]. split; [intros y [<-|Hy]; [lra|auto]|].
    destruct O as [->|O]; [|right; now right]. unfold Rmax. destruct (Rle_dec m x); [right; now left|now left].
  Qed.
  (** bold are exactly the rows with the greatest score *)
  Theorem C92_bold (scores : list (pystr * R)) k x : In (k, x) scores ->
    (bold (make_table for_in (fin scores)) (k, Fin x) = true <-> forall k' x', In (k', x') scores -> (x' <= x)%R).
  Proof.
    intros Hin. unfold bold. cbn [make_table tb_max snd]. assert (Em : map snd (fin scores) = map (fun x => Fin x : XR) (map snd scores)) by (unfold fin; rewrite !map_map; reflexivity). rewrite Em.
    destruct scores as [|[k0 x0] scores]; [destruct Hin|]. cbn [map snd max_of]. destruct (max_fin (map snd scores) x0) as (m & E & L & A & O). rewrite E. change (@n_eqb XR (Fin x) (Fin m)) with (reqb x m).
    assert (Am : forall k' x', In (k', x') ((k0, x0) :: scores) -> (x' <= m)%R) by (intros k' x' [Q|H]; [injection Q as <- <-; exact L|apply A; exact (in_map snd _ _ H)]).
    assert (Im : exists k', In (k', m) ((k0, x0) :: scores)).
    { destruct O as [->|O]; [exists k0; now left|]. apply in_map_iff in O. destruct O as ([k' x'] & <- & H). exists k'. now right. }
    destruct (reqb_spec x m) as [->|N]; [split; [intros _; exact Am|reflexivity]|]. split; [discriminate|]. intros H. exfalso. apply N. destruct Im as (k' & Hk). apply Rle_antisym; [exact (Am k x Hin)|exact (H k' m Hk)].
  Qed.

  Definition fin_ltb (col : column) (a b : pystr * R) : bool := match col with ByName => str_ltb (lower (fst a)) (lower (fst b)) | ByScore => rltb (snd a) (snd b) end.
  Lemma fin_weak col : strict_weak (fin_ltb col).
  Proof.
    destruct col; cbn [fin_ltb]; split.
    - intros a b. apply (proj1 (strict_total_weak _ str_ltb_total)).
    - intros a b c. apply (proj2 (strict_total_weak _ str_ltb_total)).
    - intros [k x] [k' y]. cbn [fin_ltb snd]. intros H. destruct (rltb_spec x y) as [L|L]; [|discriminate H]. apply rltb_false. lra.
    - intros [k x] [k' y] [k'' z]. cbn [fin_ltb snd]. intros H H'. destruct (rltb_spec y x) as [L|L]; [discriminate H|]. destruct (rltb_spec z y) as [L'|L']; [discriminate H'|]. apply rltb_false. lra.
  Qed.
  Lemma flip_weak {A} (lt : A -> A -> bool) : strict_weak lt -> strict_weak (fun a b => lt b a).
  Proof. intros [S1 S2]. split; [intros a b H; now apply S1|]. intros x y z H1 H2. exact (S2 z y x H2 H1). Qed.
  Lemma fin_le col a b : fin_ltb col b a = false <-> column_le col a b.
  Proof. destruct col; cbn [fin_ltb column_le]; [reflexivity|]. destruct (rltb_spec (snd b) (snd a)); split; intros; try discriminate; (reflexivity || lra). Qed.
  Lemma fin_same col a b : column_same col a b -> fin_ltb col a b = false.
  Proof.
    destruct col; cbn [fin_ltb column_same]; intros ->; [apply (proj1 str_ltb_total)|apply rltb_false; lra].
  Qed.
  Lemma SS_impl {A} (P Q : A -> A -> Prop) l : (forall a b, P a b -> Q a b) -> Sorted.StronglySorted P l -> Sorted.StronglySorted Q l.
  Proof. intros H. induction 1 as [|x l Hl IH Hx]; constructor; [exact IH|]. eapply Forall_impl; [|exact Hx]. auto. Qed.
  (** the rows of a table are shown sorted by the chosen column, in the chosen direction *)
  Theorem C92_sorted (s : sorting) (t : table XR) rows : tb_rows t = fin rows -> exists rows', ordered_rows s t = fin rows' /\ sorts (so_asc s) (so_col s) rows rows'.
  Proof.
    intros E. unfold ordered_rows. rewrite E. assert (W : strict_weak (fin_ltb (so_col s))) by apply fin_weak. pose proof (flip_weak _ W) as W'. unfold sorts, fin. destruct (so_asc s).
    - rewrite (sort_map _ _ (fin_ltb (so_col s))) by (intros; destruct (so_col s); reflexivity). eexists. split; [reflexivity|]. split; [apply sort_perm|]. split.
      + eapply SS_impl; [|apply sort_sorted_weak, W]. intros a b H. now apply fin_le.
      + intros p Hp. apply sort_stable; [exact W|]. intros a b Ha Hb. apply fin_same. auto.
    - rewrite (sort_map _ _ (fun a b => fin_ltb (so_col s) b a)) by (intros; destruct (so_col s); reflexivity). eexists. split; [reflexivity|]. split; [apply sort_perm|]. split.
      + eapply SS_impl; [|apply (sort_sorted_weak _ _ W')]. intros a b H. now apply fin_le.
      + intros p Hp. apply sort_stable; [exact W'|]. intros a b Ha Hb. apply fin_same. auto.
  Qed.

  (** sources are sorted by their number as a string *)
  Lemma digit_string n : (n < 10)%N -> int_string n = [(48 + n)%N].
  Proof. intros H. unfold int_string. cbn [digits]. assert (L : (n <? 10)%N = true) by (apply N.ltb_lt; exact H). rewrite L. cbn [app]. rewrite N.mod_small by exact H. reflexivity. Qed.
  Lemma lower_digits n : lower (int_string n) = int_string n.
  Proof.
    unfold lower. rewrite <- (map_id (int_string n)) at 2. apply map_ext_in. intros c Hc. destruct (int_string_chars n c Hc) as [_ Hc']. destruct (N.leb_spec 65 c); [lia|reflexivity].
  Qed.
  (** up to ten sources: in the order of their numbers *)
  Theorem C92_few_names (ids : list (N * R)) rows' : (forall n x, In (n, x) ids -> (n < 10)%N) -> sorts true ByName (map (fun p => (int_string (fst p), snd p)) ids) rows' ->
    exists ids', rows' = map (fun p => (int_string (fst p), snd p)) ids' /\ Permutation.Permutation ids' ids /\ Sorted.StronglySorted (fun a b => (fst a <= fst b)%N) ids'.
  Proof.
    intros H (P & So & _). apply Permutation.Permutation_map_inv in P. destruct P as (ids' & -> & P). exists ids'. split; [reflexivity|]. apply Permutation.Permutation_sym in P. split; [exact P|].
    assert (H' : forall n x, In (n, x) ids' -> (n < 10)%N) by (intros n x Hi; apply (H n x); exact (Permutation.Permutation_in _ P Hi)). clear P H. induction ids' as [|[n x] ids' IH]; cbn [map] in So; constructor.
    - inversion So; subst. apply IH; [assumption|]. intros m y Hm. exact (H' m y (or_intror Hm)).
    - inversion So as [|a l So' Fa]; subst. rewrite Forall_forall in *. intros [m y] Hm. specialize (Fa (int_string m, y) (in_map (fun p => (int_string (fst p), snd p)) _ _ Hm)). cbn [column_le fst snd] in *.
      rewrite !lower_digits, !digit_string in Fa by (first [exact (H' n x (or_introl eq_refl))|exact (H' m y (or_intror Hm))]). cbn [str_ltb] in Fa. destruct (N.eqb_spec (48 + m) (48 + n)); [lia|]. apply N.ltb_ge in Fa. lia.
  Qed.
  (** with more, the eleventh comes before the third *)
  Theorem C92_many_names (ids : list (N * R)) rows' x y : In (2, x)%N ids -> In (10, y)%N ids -> sorts true ByName (map (fun p => (int_string (fst p), snd p)) ids) rows' ->
    exists l1 l2 l3, rows' = l1 ++ (int_string 10, y) :: l2 ++ (int_string 2, x) :: l3.
  Proof.
    intros H2 H10 (P & So & _). apply Permutation.Permutation_sym in P.
    pose proof (Permutation.Permutation_in _ P (in_map (fun p => (int_string (fst p), snd p)) _ _ H2)) as I2. pose proof (Permutation.Permutation_in _ P (in_map (fun p => (int_string (fst p), snd p)) _ _ H10)) as I10. cbn [fst snd] in I2, I10. clear P H2 H10.
    apply in_split in I10. destruct I10 as (l1 & l2 & ->). apply in_app_or in I2. destruct I2 as [I2|I2].
    - exfalso. induction l1 as [|a l1 IH]; [destruct I2|]. cbn [app] in So. inversion So as [|b l So' Fa]; subst. destruct I2 as [->|I2]; [|exact (IH I2 So')]. rewrite Forall_forall in Fa. specialize (Fa (int_string 10, y)). cbn [column_le fst] in Fa.
      assert (Q : str_ltb (lower (int_string 10)) (lower (int_string 2)) = true) by reflexivity. rewrite Q in Fa. discriminate Fa. apply in_or_app. right. now left.
    - destruct I2 as [Q|I2]; [exfalso; assert (Q' : int_string 10 = int_string 2) by congruence; discriminate Q'|]. apply in_split in I2. destruct I2 as (l3 & l4 & ->). exists l1, l3, l4. reflexivity.
  Qed.
End Tables.

(** clicks on the headings of a table *)
Section Clicks.
  Definition after (clicks : list column) : sorting := fold_left sort_click clicks new_sorting.
  (** before any: by name, increasing, and no icon shows it *)
  Theorem C92_clicks_none : so_col (after []) = ByName /\ so_asc (after []) = true /\ forall c, so_icons (after []) c = IconUnsorted.
  Proof. repeat split. Qed.
  (** after clicks of which exactly the last k are on column c: by c, decreasing if k is odd; only the icon of c shows it *)
  Theorem C92_clicks before c k : k <> 0 -> (forall l, before <> l ++ [c]) ->
    let s := after (before ++ repeat c k) in
    so_col s = c /\ so_asc s = Nat.even k /\ so_icons s c = (if Nat.even k then IconUp else IconDown) /\ forall c', c' <> c -> so_icons s c' = IconUnsorted.
  Proof.
    assert (Inv : forall cs, (forall c, c <> so_col (after cs) -> so_icons (after cs) c = IconUnsorted) /\ ((cs = [] /\ so_col (after cs) = ByName /\ so_asc (after cs) = true) \/ exists l, cs = l ++ [so_col (after cs)])).
    { clear. intros cs. induction cs as [|c0 cs [I1 I2]] using rev_ind; [split; [reflexivity|left; auto]|]. unfold after in *. rewrite fold_left_app. cbn [fold_left]. set (s := fold_left sort_click cs new_sorting) in *. clearbody s. split.
      - intros c' N. destruct s as [col asc icons]. cbn [so_col so_icons] in I1. destruct c0, col, c'; cbn in N |- *; try reflexivity; try congruence; try (apply I1; discriminate).
      - right. exists cs. f_equal. f_equal. unfold sort_click. destruct (column_eqb (so_col s) c0); reflexivity. }
    assert (Rep : forall n, repeat c (S n) = repeat c n ++ [c]) by (induction n as [|n IHn]; [reflexivity|cbn [repeat app] in *; now rewrite IHn at 1]).
    intros Hk Hb. destruct k as [|k]; [congruence|]. clear Hk. induction k as [|k IH].
    - cbn [repeat Nat.even]. unfold after. rewrite fold_left_app. fold (after before). cbn [fold_left]. destruct (Inv before) as [I1 I2].
      destruct (column_eqb (so_col (after before)) c) eqn:Q; unfold sort_click; rewrite Q; cbn [so_col so_asc so_icons].
      + assert (Ec : so_col (after before) = c) by (destruct (so_col (after before)), c; congruence || discriminate). destruct I2 as [(-> & C & As)|(l & E)]; [|exfalso; rewrite Ec in E; exact (Hb l E)]. rewrite As. cbn [negb].
        split; [reflexivity|]. split; [reflexivity|]. split; [unfold set_icon; destruct c; reflexivity|]. intros c' N. unfold set_icon. destruct (column_eqb c' c) eqn:Q'; [destruct c', c; congruence || discriminate|]. apply I1. congruence.
      + split; [reflexivity|]. split; [reflexivity|]. split; [unfold set_icon; destruct c; reflexivity|]. intros c' N. unfold set_icon. destruct c', c, (so_col (after before)); try congruence; try discriminate; reflexivity.
    - rewrite Rep, app_assoc. unfold after in *. rewrite fold_left_app. cbn [fold_left]. set (s := fold_left sort_click (before ++ repeat c (S k)) new_sorting) in *. cbn zeta in IH. destruct IH as (C & As & Ic & Oc).
      assert (Q : column_eqb (so_col s) c = true) by (rewrite C; destruct c; reflexivity). unfold sort_click. rewrite Q. cbn [so_col so_asc so_icons]. rewrite As. assert (Ev : Nat.even (S (S k)) = negb (Nat.even (S k))) by (rewrite (Nat.even_succ (S k)), <- Nat.negb_even; reflexivity). rewrite Ev.
      split; [reflexivity|]. split; [reflexivity|]. split; [unfold set_icon; destruct c; reflexivity|]. intros c' N. unfold set_icon. destruct (column_eqb c' c) eqn:Q'; [destruct c', c; congruence || discriminate|]. now apply Oc.
  Qed.
End Clicks.

(** differences *)
Section Diffs.
  Local Open Scope R_scope.
  Lemma rounded_spec x : (0 <= rounded x)%Z /\ Rabs (IZR (rounded x) / 10 ^ 7 - Rabs x) <= / 2 * / 10 ^ 7.
  Proof.
    unfold rounded. destruct (archimed (Rabs x * 10 ^ 7 + 1 / 2)) as [A1 A2]. pose proof (Rabs_pos x) as P. set (u := up _) in *. assert (T : 0 < 10 ^ 7) by lra. assert (Pu : (0 < u)%Z) by (apply lt_IZR; nra). split; [lia|].
    rewrite minus_IZR. assert (E : (IZR u - 1) / 10 ^ 7 - Rabs x = (IZR u - 1 - Rabs x * 10 ^ 7) * / 10 ^ 7) by (field; lra). rewrite E. clear E. apply Rabs_le. assert (I7 : 0 < / 10 ^ 7) by (apply Rinv_0_lt_compat; exact T). split; nra.
  Qed.
  Lemma rounded_big x : (10 ^ 10 <= rounded x)%Z <-> 1000 - / 2 * / 10 ^ 7 <= Rabs x.
  Proof.
    unfold rounded. destruct (archimed (Rabs x * 10 ^ 7 + 1 / 2)) as [A1 A2]. set (u := up _) in *. split.
    - intros H. assert (H' : 10 ^ 10 + 1 <= IZR u) by (replace (10 ^ 10 + 1) with (IZR (10 ^ 10 + 1)) by (cbn; lra); apply IZR_le; lia). assert (E : / 2 * / 10 ^ 7 = / (2 * 10 ^ 7)) by (field). lra.
    - intros H. assert (E : 10 ^ 10 < IZR u) by lra. replace (10 ^ 10) with (IZR (10 ^ 10)) in E by (cbn; lra). apply lt_IZR in E. lia.
  Qed.
  (** no difference: nothing is shown *)
  Theorem C92_no_diff : format_diff None = NoText /\ get_diff_class None = TextGray.
  Proof. split; reflexivity. Qed.
  (** a difference that does not round to 1000 or more is shown with its sign, rounded to seven decimals; one that rounds to zero with a plus *)
  Theorem C92_diff x : Rabs x < 1000 - / 2 * / 10 ^ 7 -> exists plus (k : Z), format_diff (Some x) = SignedText plus (Some (IZR k / 10 ^ 7)) /\ (0 <= k)%Z /\ Rabs (IZR k / 10 ^ 7 - Rabs x) <= / 2 * / 10 ^ 7 /\
    (plus = true <-> 0 <= x \/ k = 0%Z).
  Proof.
    intros H. destruct (rounded_spec x) as [Rp Re]. unfold format_diff, filtered. destruct (Z.leb_spec (10 ^ 10) (rounded x)) as [L|L]; [apply rounded_big in L; lra|]. set (k := rounded x) in *. clearbody k.
    assert (K0 : 0 <= IZR k) by (apply IZR_le; exact Rp). assert (K7 : 0 <= IZR k / 10 ^ 7) by (apply Rmult_le_pos; [exact K0|left; apply Rinv_0_lt_compat; lra]).
    destruct (Rlt_dec x 0) as [Nx|Nx]; cbn [option_map].
    - eexists _, k. rewrite Rabs_Ropp, (Rabs_pos_eq _ K7). split; [reflexivity|]. split; [exact Rp|]. split; [exact Re|]. destruct (Rle_dec 0 (- (IZR k / 10 ^ 7))) as [Q|Q].
      + split; [intros _; right|reflexivity]. apply eq_IZR. assert (E : IZR k / 10 ^ 7 = 0) by lra. apply Rmult_integral in E. destruct E as [E|E]; [exact E|]. exfalso. pose proof (Rinv_0_lt_compat (10 ^ 7) ltac:(lra)). lra.
      + split; [discriminate|]. intros [P| ->]; [lra|]. exfalso. apply Q. unfold Rdiv. rewrite Rmult_0_l. lra.
    - eexists _, k. rewrite (Rabs_pos_eq _ K7). split; [reflexivity|]. split; [exact Rp|]. split; [exact Re|]. destruct (Rle_dec 0 (IZR k / 10 ^ 7)) as [Q|Q]; [|contradiction]. split; [intros _; left; lra|reflexivity].
  Qed.
  (** others are shown as "(-NaN)", whatever their sign *)
  Theorem C92_big_diff x : 1000 - / 2 * / 10 ^ 7 <= Rabs x -> format_diff (Some x) = SignedText false None.
  Proof. intros H. apply rounded_big in H. unfold format_diff, filtered. apply Z.leb_le in H. rewrite H. reflexivity. Qed.
  (** the colour shows the sign of the difference itself *)
  Theorem C92_diff_class x : (get_diff_class (Some x) = TextSuccess <-> 0 < x) /\ (get_diff_class (Some x) = TextError <-> x < 0) /\ (get_diff_class (Some x) = TextGray <-> x = 0).
  Proof. unfold get_diff_class. destruct (Rlt_dec 0 x), (Rlt_dec x 0); repeat split; intros; try discriminate; try reflexivity; lra. Qed.
End Diffs.

(** ** Non-vacuity *)
Module ViewExamples.
  Import CsvExamples ClientExamples CliExamples WebExamples PageExamples.
  Local Close Scope R_scope.
  Definition yellow : colour XR := [Fin 1; Fin 1; Fin 0].
  Definition the_label : label XR := Label (Fin 20) (Fin 20) yellow (lit_str "s") (Fin 12) yellow.
  Definition the_entities : list (entity XR) := [Rectangle (Fin 0) (Fin 0) yellow (Fin 40) (Fin 40); Circle (Fin 20) (Fin 20) yellow (Fin 10) (Some the_label); Line (Fin 0) (Fin 0) yellow (Fin 9) (Fin 9) (Fin 1) true].
  Example coloured_entities : Forall coloured the_entities.
  Proof. repeat constructor; cbn; auto. Qed.
  Example png_drawn te : exists p es', draw_entities te the_entities 40 40 = Ok (p, es').
  Proof. pose proof (C69_marks te the_entities 40 40 coloured_entities) as Q. cbn [Z.ltb Z.leb Z.compare andb] in Q. match type of Q with if ?b then _ else _ => destruct b eqn:B; [|vm_compute in B; discriminate B] end. destruct Q as (p & es' & E & _). eauto. Qed.
  Definition the_frames : list (drawing XR) := [drawing_of the_entities 40 40; drawing_of [] 40 40; drawing_of the_entities 40 40].
  Example proper_frames : Forall proper the_frames.
  Proof. repeat constructor; [exists the_entities|exists []|exists the_entities]; (split; [|reflexivity]); try exact coloured_entities; constructor. Qed.
  (** next, the right arrow key, the slider back to the second frame, and back *)
  Example some_actions measure : exists a, playing measure the_frames [NextButton; Key 39; Slider 1; PreviousButton] a /\ an_current a = 0%Z.
  Proof.
    destruct (C90_player measure the_frames proper_frames ltac:(discriminate)) as [L G]. destruct (L new_animator) as (a0 & E0 & C0). pose proof (loaded measure the_frames _ _ E0) as P0.
    assert (Fr : forall acts a, playing measure the_frames acts a -> an_frames a = Some the_frames) by (intros acts a P; exact (proj1 (proj1 (G _ _ P)))).
    assert (Step : forall acts a x, playing measure the_frames acts a -> player_offers a x = true -> exists a', playing measure the_frames (acts ++ [x]) a' /\ an_current a' = goes_to 3 (an_current a) x).
    { intros acts a x P O. destruct (proj2 (G _ _ P) x O) as (a' & E & C). exists a'. split; [exact (played measure the_frames _ _ _ _ P O E)|exact C]. }
    destruct (Step _ _ NextButton P0) as (a1 & P1 & C1); [unfold player_offers; rewrite (Fr _ _ P0), C0; reflexivity|]. rewrite C0 in C1.
    destruct (Step _ _ (Key 39) P1) as (a2 & P2 & C2); [unfold player_offers; rewrite (Fr _ _ P1); reflexivity|]. rewrite C1 in C2.
    destruct (Step _ _ (Slider 1) P2) as (a3 & P3 & C3); [unfold player_offers; rewrite (Fr _ _ P2); reflexivity|].
    destruct (Step _ _ PreviousButton P3) as (a4 & P4 & C4); [unfold player_offers; rewrite (Fr _ _ P3), C3; reflexivity|]. rewrite C3 in C4. exists a4. split; [exact P4|exact C4].
  Qed.
  Definition as_is (l : list pystr) : list pystr := l.
  Lemma as_is_ok l : NoDup l -> Permutation.Permutation (as_is l) l.
  Proof. intros _. apply Permutation.Permutation_refl. Qed.

  Section AnyTrig.
    Variables (T : trig XR) (clocks : nat -> nat -> XR) (loads : pystr -> option (jval (F:=XR))) (measure : XR -> pystr -> XR).
    Notation page := (web_run parse1 (fun n : nat => n) pf ascii_decimal ident Nat.ltb (fun _ => 0) T show1 show1 loads ident clocks 100).
    (** an answer for "sums", with eight frames, displayed *)
    Example displayed : exists q data ms e v' frames fps, page q = R200 data ms /\ dget data (lit_str "sums") = Some e /\ show_answer measure as_is show1 show1 new_view data = (v', false) /\
      we_animation e = Some (fps, frames) /\ List.length frames = 8.
    Proof.
      destruct (first_answer T (fun _ => clocks) (fun _ => []) (fun _ => JvNull) (fun _ => []) loads 0) as (data & ms & e & E & De). exists (sent_request None), data, ms, e.
      destruct (C90_displayed parse1 (fun n : nat => n) pf ascii_decimal ascii_ok ident ident_ok Nat.ltb (fun _ => 0) xr_irrefl T show1 show1 loads ident ident_ok' show1_inj show1_inj measure as_is clocks 100 as_is_ok (sent_request None) data ms new_view E) as (v' & Es & _).
      { intros e' De'. exfalso. destruct (answered_spec parse1 (fun n : nat => n) pf ascii_decimal ascii_ok ident ident_ok Nat.ltb (fun _ => 0) xr_irrefl T show1 show1 loads ident ident_ok' show1_inj show1_inj 100 clocks _ _ _ E) as (? & ? & ? & ? & _ & _ & _ & (_ & _ & K & _)).
        assert (H : In (lit_str "crh") (q_algorithm (sent_request None))) by (apply K; exact (in_map fst _ _ (dget_In _ _ _ De'))). destruct H as [H|[]]; discriminate H. }
      destruct (C90_frames parse1 (fun n : nat => n) pf ascii_decimal ascii_ok ident ident_ok Nat.ltb (fun _ => 0) xr_irrefl T show1 show1 loads ident ident_ok' show1_inj show1_inj clocks 100 _ _ _ _ _ E De) as [_ A].
      destruct (we_animation e) as [[fps frames]|] eqn:Ea; [|discriminate A]. exists v', frames, fps. split; [exact E|]. split; [exact De|]. split; [exact Es|]. split; [reflexivity|]. destruct A as (_ & (n & Rn & Ln) & Ao).
      assert (Hb : beq (lit_str "sums") (lit_str "crh") = false) by reflexivity. rewrite Hb in Ln. rewrite Ln. f_equal.
      destruct (answered_spec parse1 (fun n : nat => n) pf ascii_decimal ascii_ok ident ident_ok Nat.ltb (fun _ => 0) xr_irrefl T show1 show1 loads ident ident_ok' show1_inj show1_inj 100 clocks _ _ _ E) as (lines & items & m & d & PL & FA & Ed & (_ & _ & _ & K & _)).
      change (build false None (get_triples (fun n : nat => n) m) = Ok d) in Ed. destruct (K _ _ De) as (i & _ & _ & (c & r & Tl & (o & Ro & Er) & Hf & _)).
      rewrite (lines1 None lines PL) in FA. inversion FA as [|? it ? its E1 E2 E3 E4]; subst. inversion E2; subst. assert (Ei : it = (lit_str "iterator", PIterator (IFixed 7 0))) by (vm_compute in E1; injection E1 as <-; reflexivity). subst it.
      assert (Ec : c = CSums) by (apply (proj1 (C47_labels _ _)) in Tl; vm_compute in Tl; congruence). subst c. assert (Ko : o = OIterative (AObj Sums FIXED (IFixed 7 0) None)) by (vm_compute in Ro; injection Ro as <-; reflexivity). subst o. unfold reports_iterations in Rn. specialize (Hf FIterations). rewrite Rn in Hf. cbn [field_value] in Hf. assert (Hr : r_iterations r = Some n) by congruence.
      unfold crun in Er. destruct (run (clocks (2 * i)) 100 (AObj Sums FIXED (IFixed 7 0) None) d) as [r0 o0] eqn:Eru. cbn [fst] in Er. subst r0. destruct (C28_fixed false None _ d Ed (clocks (2 * i)) 100 Sums FIXED 7 0 None r o0 Eru) as (k & Hk & _ & H7 & _). rewrite Hr in Hk. injection Hk as ->. exact H7.
    Qed.
    (** "crh" with no rounds *)
    Definition request0 := Request [lit_str "crh"] (Some (to_csv show1 m2)) (Some (lit_str "iterator=fixed-0")) None.
    Lemma lines0 lines : parameter_lines request0 lines -> lines = [lit_str "iterator=fixed-0"].
    Proof. unfold parameter_lines. cbn [q_parameters request0]. intros (N1 & J1 & P1). rewrite <- (split_join newline lines N1 P1), J1. vm_compute. reflexivity. Qed.
    Lemma items0 lines items : parameter_lines request0 lines -> Forall2 (fun s it => algorithm_parameter pf ascii_decimal s = Ok it) lines items -> items = [(lit_str "iterator", PIterator (IFixed 0 0))].
    Proof. intros PL FA. rewrite (lines0 lines PL) in FA. inversion FA as [|? it ? its E1 E2 E3 E4]; subst. inversion E2; subst. vm_compute in E1. injection E1 as <-. reflexivity. Qed.
    Example crh_zero : exists data ms e, page request0 = R200 data ms /\ dget data (lit_str "crh") = Some e /\ reports_iterations e 0.
    Proof.
      assert (Ne : forall e, page request0 <> Escaped e).
      { refine (proj1 (C48_no_escape parse1 (fun n : nat => n) pf ascii_decimal ascii_ok ident ident_ok Nat.ltb (fun _ => 0) xr_irrefl T show1 show1 loads ident ident_ok' show1_inj show1_inj clocks 100 request0 _ I)).
        intros lines items text text' m H1 H2 H3 H4 H5. rewrite (items0 _ _ H1 H2). split; [intros name x Q; apply dict_of_In in Q; destruct Q as [[= _ ]|[]]|]. split; intros [H|[]]; discriminate H. }
      assert (Np : forall d : dataset nat nat nat XR, build false None (get_triples (fun n : nat => n) m2) = Ok d -> forall i c r, In (lit_str "crh", c) label_table -> alone (clocks (2 * i)) 100 [(lit_str "iterator", PIterator (IFixed 0 0))] d c r ->
        exists x, r = Ok x /\ r_iterations x = Some 0).
      { intros d Ed i c r Hc (o & Eo & ->). assert (Ko : exists eps, o = OIterative (AObj (CRH eps) FIXED (IFixed 0 0) None)).
        { apply (proj2 (proj1 (C47_labels _ _))) in Hc. vm_compute in Hc. injection Hc as <-. cbn -[lit] in Eo. injection Eo as <-. eexists. reflexivity. }
        destruct Ko as (eps & ->). destruct (C28_fixed_returns false None (get_triples (fun n : nat => n) m2) d Ed (clocks (2 * i)) 100 (CRH eps) FIXED 0 0 None ltac:(discriminate) ltac:(discriminate) ltac:(discriminate) ltac:(cbn; lia)) as [x Ex].
        exists x. unfold crun. destruct (run (clocks (2 * i)) 100 (AObj (CRH eps) FIXED (IFixed 0 0) None) d) as [r1 o1] eqn:Er. cbn [fst] in *. subst r1. split; [reflexivity|].
        destruct (C28_fixed false None _ d Ed (clocks (2 * i)) 100 (CRH eps) FIXED 0 0 None x o1 Er) as (k & Hk & _ & H0 & _). rewrite Hk, H0. reflexivity. }
      destruct (C48_run parse1 (fun n : nat => n) pf ascii_decimal ascii_ok ident ident_ok Nat.ltb (fun _ => 0) xr_irrefl T show1 show1 loads ident ident_ok' show1_inj show1_inj clocks 100 request0) as [_ Q].
      destruct (Q (to_csv show1 m2) ltac:(discriminate) eq_refl ltac:(discriminate)) as (lines & Hl & [(b & li & af & e & El & _ & Ee & _)|(items & Hi & text' & Ht & Q')]).
      { exfalso. rewrite (lines0 lines Hl) in El. destruct b as [|? [|]]; [injection El as <- <-; vm_compute in Ee; discriminate|discriminate|discriminate]. }
      assert (Ec : csv_to_masked_array parse1 text' = Ok m2) by (unfold no_underscores in Ht; rewrite Ht; vm_compute; reflexivity). rewrite Ec in Q'. destruct Q' as (d & Ed & Q'). rewrite (items0 _ _ Hl Hi) in Q'.
      change (dict_of [(lit_str "iterator", PIterator (IFixed 0 0))]) with [(lit_str "iterator", PIterator (F:=XR) (IFixed 0 0))] in Q'.
      change (build false None (get_triples (fun n : nat => n) m2) = Ok d) in Ed. specialize (Np d Ed). clear Q Hl Hi Ht Ec Ed. destruct (page request0) as [out ms|er| |er|].
      - destruct Q' as (_ & _ & K & Q & _). assert (Hs : In (lit_str "crh") (dkeys out)) by (apply K; now left). destruct (dget out (lit_str "crh")) as [e|] eqn:De; [|apply dget_None in De; contradiction]. exists out, ms, e. split; [reflexivity|]. split; [exact De|].
        destruct (Q _ _ De) as (i & _ & _ & (c & r & Tl & Al & Hf & _)). destruct (Np i c (Ok r) Tl Al) as (x & Ex & Hx). injection Ex as <-. specialize (Hf FIterations). unfold reports_iterations. destruct (dget (we_fields e) FIterations) as [v|]; [cbn [field_value] in Hf; congruence|discriminate].
      - exfalso. destruct Q' as (i & l & Hn & Hr & _). apply nth_error_In in Hn. destruct Hn as [<-|[]]. inversion Hr; subst; try discriminate. match goal with H : forall c, ~ In (_, c) label_table |- _ => apply (H CCRH); cbn; tauto end.
      - exfalso. destruct Q' as (i & l & Hn & Hr & _). apply nth_error_In in Hn. destruct Hn as [<-|[]]. inversion Hr; subst. match goal with A : alone _ _ _ _ _ _, B : In _ label_table |- _ => destruct (Np i _ _ B A) as (x & Q & _); discriminate Q end.
      - exfalso. exact (Ne er eq_refl).
      - exfalso. destruct Q' as (i & l & Hn & Hr & _). apply nth_error_In in Hn. destruct Hn as [<-|[]]. inversion Hr; subst. match goal with A : alone _ _ _ _ _ _, B : In _ label_table |- _ => destruct (Np i _ _ B A) as (x & Q & _); discriminate Q end.
    Qed.
  End AnyTrig.
  (** a table of eleven sources, and clicks *)
  Definition eleven : list (N * R) := map (fun i => (N.of_nat i, INR i)) (seq 0 11).
  Definition eleven_rows : list (pystr * R) := map (fun p => (int_string (fst p), snd p)) eleven.
  Lemma eleven_distinct : NoDup (map fst (fin eleven_rows)).
  Proof. assert (Em : map fst (fin eleven_rows) = map (fun i => int_string (N.of_nat i)) (seq 0 11)) by reflexivity. rewrite Em. vm_compute. repeat constructor; cbn; intuition discriminate. Qed.
  Example eleven_sorted s : exists rows', ordered_rows s (make_table as_is (fin eleven_rows)) = fin rows' /\ sorts (so_asc s) (so_col s) eleven_rows rows'.
  Proof. apply C92_sorted. reflexivity. Qed.
  Example eleventh_before_third : exists rows' l1 l2 l3 x y, ordered_rows new_sorting (make_table as_is (fin eleven_rows)) = fin rows' /\ rows' = l1 ++ (int_string 10, y) :: l2 ++ (int_string 2, x) :: l3.
  Proof.
    destruct (eleven_sorted new_sorting) as (rows' & E & S). exists rows'. destruct (C92_many_names eleven rows' (INR 2) (INR 10)) as (l1 & l2 & l3 & Er); [right; right; now left|do 10 right; now left|exact S|]. exists l1, l2, l3, (INR 2), (INR 10). auto.
  Qed.
  Example some_clicks : let s := after ([ByScore; ByScore; ByName] ++ repeat ByScore 2) in so_col s = ByScore /\ so_asc s = true.
  Proof. destruct (C92_clicks [ByScore; ByScore; ByName] ByScore 2) as (C & A & _); [discriminate| |split; [exact C|exact A]]. intros l Q. assert (Ql : last (l ++ [ByScore]) ByName = ByScore) by apply last_last. rewrite <- Q in Ql. discriminate. Qed.
  Example a_small_negative : format_diff (Some (- (1 / 10 ^ 9))%R) = SignedText true (Some (IZR 0 / 10 ^ 7)%R) /\ get_diff_class (Some (- (1 / 10 ^ 9))%R) = TextError.
  Proof.
    split; [|apply C92_diff_class; lra]. destruct (C92_diff (- (1 / 10 ^ 9))) as (plus & k & -> & K & Re & P); [rewrite Rabs_left; lra|]. rewrite (Rabs_left (- (1 / 10 ^ 9))) in Re by lra.
    assert (k = 0%Z). { destruct (Z.eq_dec k 0) as [|N]; [assumption|exfalso]. assert (1 <= IZR k)%R by (apply IZR_le; lia). unfold Rabs in Re. destruct (Rcase_abs _) in Re; lra. } subst k. f_equal. apply P. now right.
  Qed.
End ViewExamples.
