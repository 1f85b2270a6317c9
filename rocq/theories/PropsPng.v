(** C69: pictures drawn as PNG. *)
From Coq Require Import NArith String Reals Lra Lia.
From Verif Require Import Base Num Sparse Spec Dataset DatasetProofs DatasetRep Iterators Algorithms Results PropsResult PyStr Client PropsOutput Graph GraphRep PropsGraph Png SpecAlg AlgRep AlgRounds AlgTF PropsAlg.

(** ** Specification: the marks of one entity *)
Section Shows.
  Context {F : Num}.
  Variable text_extents : F -> pystr -> extents F.
  (** a path that encloses exactly the disc: the circle, possibly preceded by a point, from which a straight line leads to it *)
  Definition disc (x y r : F) (path : list (seg F)) : Prop := path = [ArcOf x y r] \/ exists px py, path = [MoveTo px py; ArcOf x y r].
  (** a label: its text, and below it a box if it is wider than the disc it belongs to *)
  Definition shows_label (image_width : Z) (max_width : F) (l : label F) (ms : list (mark F)) : Prop :=
    let e := text_extents (l_size l) (l_text l) in
    let x0 := label_lhs image_width (e_width e) (l_x l) in
    let y0 := n_sub (l_y l) (n_div (e_y_bearing e) (n_ofZ 2)) in
    if n_ltb max_width (e_width e) then
      exists r g b a, l_overflow l = r :: g :: b :: a /\ ms =
        [Filled (l_overflow l) [RectOf (n_sub x0 (n_ofZ 5)) (n_sub (n_sub (l_y l) (n_div (e_height e) (n_ofZ 2))) (n_ofZ 5)) (n_add (e_width e) (n_ofZ 10)) (n_add (e_height e) (n_ofZ 10))];
         Text [n_sub (n_ofZ 1) r; n_sub (n_ofZ 1) g; n_sub (n_ofZ 1) b] (l_size l) x0 y0 (l_text l)]
    else ms = [Text (l_colour l) (l_size l) x0 y0 (l_text l)].
  Definition shows (image_width : Z) (e : entity F) (ms : list (mark F)) : Prop :=
    match e with
    | Rectangle x y c w h => ms = [Filled c [RectOf x y w h]]
    | Line x y c ex ey w dashed => ms = [Stroked c w (if dashed then [n_ofZ 10] else []) [MoveTo x y; LineTo ex ey]]
    | Circle x y c r lab => exists path rest, ms = Filled c path :: rest /\ disc x y r path /\
        match lab with None => rest = [] | Some l => shows_label image_width (n_mul (n_ofZ 2) r) l rest end
    end.
  (** colours with three or four components, wherever one is needed *)
  Definition rgba (c : colour F) : Prop := length c = 3 \/ length c = 4.
  Definition coloured (e : entity F) : Prop :=
    match e with
    | Rectangle _ _ c _ _ | Line _ _ c _ _ _ _ => rgba c
    | Circle _ _ c _ lab => rgba c /\ match lab with None => True | Some l => rgba (l_colour l) /\ rgba (l_overflow l) end
    end.

  (** ** Proofs *)
  (** between entities the path is empty or a point *)
  Definition clean (k : ctx F) : Prop := c_path k = [] \/ exists x y, c_path k = [MoveTo x y].
  Lemma trim_clean k : clean k -> trim (c_path k) = [].
  Proof. intros [->|(x & y & ->)]; reflexivity. Qed.
  Lemma rgba_set k c : rgba c -> set_source_rgba k c = Ok (Ctx c (c_font k) (c_dash k) (c_line_width k) (c_path k)).
  Proof. intros [E|E]; unfold set_source_rgba; rewrite E; reflexivity. Qed.
  Lemma set_rgba k c k' : set_source_rgba k c = Ok k' -> rgba c /\ k' = Ctx c (c_font k) (c_dash k) (c_line_width k) (c_path k).
  Proof.
    unfold set_source_rgba, rgba. destruct (Nat.eqb_spec (length c) 3) as [E|E]; cbn [orb]; [intros [= <-]; auto|]. destruct (Nat.eqb_spec (length c) 4) as [E'|E']; [intros [= <-]; auto|discriminate].
  Qed.
  Lemma inverted_ok c : rgba c -> exists r g b a, c = r :: g :: b :: a /\ inverted c = Ok [n_sub (n_ofZ 1) r; n_sub (n_ofZ 1) g; n_sub (n_ofZ 1) b].
  Proof. intros [H|H]; destruct c as [|r [|g [|b [|a [|? ?]]]]]; cbn in H; try lia; exists r, g, b; eexists; split; reflexivity. Qed.
  Lemma draw_label_char k l mw iw : c_path k = [] -> rgba (l_overflow l) -> rgba (l_colour l) ->
    exists k' ms l', draw_label text_extents k l mw iw = Ok (k', ms, l') /\ clean k' /\ shows_label iw mw l ms /\ rgba (l_colour l') /\ l_overflow l' = l_overflow l /\
      forall j, c_path j = [] -> c_dash j = c_dash k -> c_line_width j = c_line_width k -> draw_label text_extents j l' mw iw = Ok (k', ms, l').
  Proof.
    intros Hp Ho Hl. unfold draw_label, shows_label. cbn [l_size l_text l_x l_y l_colour l_overflow]. set (e := text_extents (l_size l) (l_text l)). destruct (n_ltb mw (e_width e)) eqn:Q.
    - destruct (inverted_ok _ Ho) as (r & g & b & a & Eo & Ei). rewrite Ei. cbn [bind]. rewrite rgba_set by exact Ho. cbn [bind fill]. rewrite rgba_set by (left; reflexivity). cbn [bind show_text].
      eexists _, _, _. split; [reflexivity|]. split; [right; cbn; eauto|]. split; [exists r, g, b, a; split; [exact Eo|]; cbn; rewrite Hp; reflexivity|]. split; [left; reflexivity|]. split; [reflexivity|].
      intros j Hj Hd Hw. cbn [l_size l_text l_x l_y l_colour l_overflow]. fold e. rewrite Q, Ei. cbn [bind]. rewrite rgba_set by exact Ho. cbn [bind fill]. rewrite rgba_set by (left; reflexivity). cbn. rewrite Hp, Hj, Hd, Hw. reflexivity.
    - cbn [bind]. rewrite rgba_set by exact Hl. cbn [bind show_text]. eexists _, _, _. split; [reflexivity|]. split; [right; cbn; rewrite Hp; cbn; eauto|]. split; [reflexivity|]. split; [exact Hl|]. split; [reflexivity|].
      intros j Hj Hd Hw. fold e. rewrite Q. cbn [bind]. rewrite rgba_set by exact Hl. cbn. rewrite Hp, Hj, Hd, Hw. reflexivity.
  Qed.
  Lemma draw_entity_char k e iw : clean k -> coloured e ->
    exists k' ms e', draw_entity text_extents k e iw = Ok (k', ms, e') /\ clean k' /\ shows iw e ms /\ coloured e' /\ draw_entity text_extents k e' iw = Ok (k', ms, e').
  Proof.
    intros Hk He. destruct e as [x y c w h|x y c r lab|x y c ex ey w dashed]; cbn [coloured] in He.
    - cbn [draw_entity]. rewrite rgba_set by exact He. cbn [bind fill]. eexists _, _, _. split; [reflexivity|]. split; [now left|]. split; [cbn; rewrite trim_clean by exact Hk; reflexivity|]. split; [exact He|]. cbn [draw_entity]. rewrite rgba_set by exact He. reflexivity.
    - destruct He as [Hc Hl]. cbn [draw_entity]. rewrite rgba_set by exact Hc. cbn [bind fill]. set (k1 := with_path _ []). set (m := Filled _ _).
      assert (Hm : exists path, m = Filled c path /\ disc x y r path).
      { unfold m. cbn. eexists. split; [reflexivity|]. destruct Hk as [->|(px & py & ->)]; [left; reflexivity|right; exists px, py; reflexivity]. }
      destruct Hm as (path & Em & Hd). destruct lab as [l|].
      + destruct Hl as [Hl Ho]. destruct (draw_label_char k1 l (n_mul (n_ofZ 2) r) iw eq_refl Ho Hl) as (k' & ms & l' & E1 & E2 & E3 & E4 & E5 & E6). rewrite E1. cbn [bind].
        eexists _, _, _. split; [reflexivity|]. split; [exact E2|]. split; [exists path, ms; rewrite Em; auto|]. split; [cbn; rewrite E5; auto|].
        cbn [draw_entity]. rewrite rgba_set by exact Hc. cbn [bind fill]. fold k1. fold m. rewrite (E6 k1) by reflexivity. reflexivity.
      + eexists _, _, _. split; [reflexivity|]. split; [now left|]. split; [exists path, []; rewrite Em; auto|]. split; [cbn; auto|]. cbn [draw_entity]. rewrite rgba_set by exact Hc. reflexivity.
    - cbn [draw_entity]. rewrite rgba_set by exact He. cbn [bind stroke]. eexists _, _, _. split; [reflexivity|]. split; [now left|]. split; [cbn; rewrite trim_clean by exact Hk; reflexivity|]. split; [exact He|]. cbn [draw_entity]. rewrite rgba_set by exact He. reflexivity.
  Qed.
  Lemma draw_loop_char es iw : Forall coloured es -> forall k, clean k ->
    exists k' ms es', draw_loop text_extents k es iw = Ok (k', ms, es') /\ (exists mss, ms = concat mss /\ Forall2 (shows iw) es mss) /\ draw_loop text_extents k es' iw = Ok (k', ms, es').
  Proof.
    induction 1 as [|e es He Hes IH]; intros k Hk.
    - exists k, [], []. split; [reflexivity|]. split; [exists []; split; [reflexivity|constructor]|reflexivity].
    - destruct (draw_entity_char k e iw Hk He) as (k1 & ms & e' & E1 & E2 & E3 & _ & E4). destruct (IH k1 E2) as (k' & ms' & es' & L1 & (mss & -> & L2) & L3).
      exists k', (ms ++ concat mss), (e' :: es'). cbn [draw_loop]. rewrite E1. cbn [bind]. rewrite L1. cbn [bind]. split; [reflexivity|].
      split; [exists (ms :: mss); split; [reflexivity|constructor; assumption]|]. rewrite E4. cbn [bind]. rewrite L3. reflexivity.
  Qed.
  (** an image cairo can create and write *)
  Definition drawable (n : Z) : Prop := (0 < n <= 32767)%Z.
  Lemma drawable_spec w h : drawable w /\ drawable h <-> negb (size_ok w && size_ok h) = false /\ (Z.eqb w 0 || Z.eqb h 0)%bool = false.
  Proof.
    unfold drawable, size_ok. destruct (Z.leb_spec 0 w), (Z.leb_spec w 32767), (Z.leb_spec 0 h), (Z.leb_spec h 32767), (Z.eqb_spec w 0), (Z.eqb_spec h 0); cbn; intuition (discriminate || lia).
  Qed.
  (** Entities with proper colours are drawn exactly if the image has a proper size; then the picture consists of the marks of
      the entities, in their order, whatever was drawn before each of them; drawing the entities again gives the same picture. *)
  Theorem C69_marks es width height : Forall coloured es ->
    if (Z.leb 1 width && Z.leb width 32767 && Z.leb 1 height && Z.leb height 32767)%bool then
      exists p es', draw_entities text_extents es width height = Ok (p, es') /\ p_width p = width /\ p_height p = height /\
        (exists mss, p_marks p = concat mss /\ Forall2 (shows width) es mss) /\ draw_entities text_extents es' width height = Ok (p, es')
    else draw_entities text_extents es width height = Err (if (Z.leb 0 width && Z.leb width 32767 && Z.leb 0 height && Z.leb height 32767)%bool then PWrite else PSize).
  Proof.
    intros H. destruct (draw_loop_char es width H new_ctx (or_introl eq_refl)) as (k' & ms & es' & L1 & L2 & L3). unfold draw_entities. rewrite L1. cbn [bind].
    destruct (_ && _)%bool eqn:Q at 1.
    - assert (D : drawable width /\ drawable height) by (unfold drawable; rewrite !Bool.andb_true_iff, !Z.leb_le in Q; lia). apply drawable_spec in D. destruct D as [-> ->].
      exists (Picture width height ms), es'. rewrite L3. cbn. auto.
    - assert (So : (size_ok width && size_ok height)%bool = (Z.leb 0 width && Z.leb width 32767 && Z.leb 0 height && Z.leb height 32767)%bool) by (unfold size_ok; now rewrite !Bool.andb_assoc). rewrite <- So.
      destruct (size_ok width && size_ok height)%bool eqn:Q1; cbn [negb]; [|reflexivity]. apply (f_equal negb) in Q1. cbn [negb] in Q1. destruct (Z.eqb width 0 || Z.eqb height 0)%bool eqn:Q2; [reflexivity|].
      exfalso. pose proof (proj2 (drawable_spec width height) (conj Q1 Q2)) as [D1 D2]. unfold drawable in *. assert (T : (Z.leb 1 width && Z.leb width 32767 && Z.leb 1 height && Z.leb height 32767)%bool = true) by (rewrite !Bool.andb_true_iff, !Z.leb_le; lia). congruence.
  Qed.
End Shows.

(** Where the text of a label starts: as far left as centring it needs, but not outside the image; it ends inside the image if it
    is not wider than that. *)
Theorem C69_label_place W w x : (0 <= w)%R -> exists x0, label_lhs (F:=XR) W (Fin w) (Fin x) = Fin x0 /\ (0 <= x0)%R /\
  ((w <= IZR W)%R -> (x0 + w <= IZR W)%R /\
     ((0 <= x - w / 2)%R -> (x + w / 2 <= IZR W)%R -> x0 = (x - w / 2)%R) /\
     ((x - w / 2 < 0)%R -> x0 = 0%R) /\ ((IZR W < x + w / 2)%R -> x0 = (IZR W - w)%R)) /\
  ((IZR W < w)%R -> x0 = 0%R).
Proof.
  intros Hw. unfold label_lhs, py_max2, py_min2. cbn [n_ofZ XR n_sub n_div n_ltb]. rewrite xdiv_fin, !xsub_fin by lra. cbn [xltb].
  destruct (rltb_spec (x - w / 2) (IZR W - w)) as [H|H]; cbn [xltb].
  - destruct (rltb_spec 0 (x - w / 2)) as [H'|H']; eexists; (split; [reflexivity|]); repeat split; intros; lra.
  - destruct (rltb_spec 0 (IZR W - w)) as [H'|H']; eexists; (split; [reflexivity|]); repeat split; intros; lra.
Qed.

(** ** The graph of a dataset as a PNG *)
Section GraphPng.
  Context {S V W LS LV : Type} {ES : Eqb S} {EV : Eqb V} {EW : Eqb W} {EL : Eqb LV} {F : Num} {FOK : NumOK F}.
  Variable src_tuple : S -> option (option (V * W)).
  Variable T : trig F.
  Variable sz : sizes.
  Variable nm : naming S V W LS LV.
  Variable text_extents : F -> pystr -> extents F.
  Variables (b : bool) (impf : option (V -> W -> W -> option F)) (ts : list (S * V * W)) (d : dataset S V W F).
  Hypothesis Hb : build b impf ts = Ok d.

  Lemma node_rgba sch n (c1 c2 c3 : colour F) : get_node_colour (F:=F) src_tuple sch n = Ok (c1, c2, c3) -> rgba c1 /\ rgba c2 /\ rgba c3.
  Proof.
    assert (G : forall level c l, get_graded_colours (F:=F) level = Ok (c, l) -> rgba c /\ rgba l).
    { intros level c l. unfold get_graded_colours. destruct (n_trunc _) as [k|]; [|discriminate]. intros H. destruct (py_index COLOURS _) as [c'|] eqn:E; [|discriminate]. injection H as -> <-.
      split; [|destruct (n_ltb _ _); left; reflexivity]. assert (I : In c (COLOURS (F:=F))) by (unfold py_index in E; repeat match goal with H : context [if ?b then _ else _] |- _ => destruct b end; try discriminate; eapply nth_error_In; exact E).
      left. revert c I E. cbn [COLOURS In]. intros c I _. repeat destruct I as [<-|I]; try reflexivity. destruct I. }
    assert (Dn : forall n, let '(a, b', c) := default_node_colour (S:=S) (V:=V) (W:=W) (F:=F) n in rgba a /\ rgba b' /\ rgba c) by (intros [s|x w|x]; cbn; repeat split; left; reflexivity).
    destruct sch as [|r|]; cbn [get_node_colour].
    - intros Q. assert (Q' : default_node_colour n = (c1, c2, c3)) by congruence. pose proof (Dn n) as H. rewrite Q' in H. exact H.
    - destruct n as [s|x w|x].
      + destruct (match src_tuple s with None => _ | Some _ => _ end) as [lv|]; cbn [bind]; [|discriminate]. destruct (get_graded_colours lv) as [[c l]|] eqn:Eg; cbn [bind]; [|discriminate]. intros [= <- <- <-]. destruct (G _ _ _ Eg). repeat split; auto. left; reflexivity.
      + destruct (belief_level r x w) as [lv|]; cbn [bind]; [|discriminate]. destruct (get_graded_colours lv) as [[c l]|] eqn:Eg; cbn [bind]; [|discriminate]. intros [= <- <- <-]. destruct (G _ _ _ Eg). repeat split; auto. left; reflexivity.
      + intros Q. assert (Q' : default_node_colour (F:=F) (NVariable (S:=S) (W:=W) x) = (c1, c2, c3)) by congruence. pose proof (Dn (NVariable x)) as H. rewrite Q' in H. exact H.
    - intros [= <- <- <-]. repeat split; left; reflexivity.
  Qed.
  Lemma picture_coloured st cols P height progress : (forall n, graph_node ts n -> get_node_colour src_tuple (rs_colours st) n = Ok (cols n)) ->
    Forall coloured (PropsGraph.picture sz (style_of nm (rs_colours st) cols) (arrow_head T sz) ts P height progress).
  Proof.
    intros AllC.
    assert (Bg : rgba (get_background_colour (rs_colours st))) by (destruct (rs_colours st); cbn; [left|left|right]; reflexivity).
    assert (Edge : forall a b', Forall coloured (edge_picture sz (style_of nm (rs_colours st) cols) (arrow_head T sz) a b')).
    { intros a b'. unfold edge_picture. destruct (arrow_head T sz a b') as [[? ?] ?]. assert (Ec : rgba (st_edge (style_of nm (rs_colours st) cols))) by (cbn; destruct (rs_colours st); left; reflexivity). cbn [map]. do 3 (apply Forall_cons; [exact Ec|]). apply Forall_nil. }
    assert (Nod : forall n text xy, graph_node ts n -> Forall coloured (node_picture sz (style_of nm (rs_colours st) cols) n text xy)).
    { intros n text [px py] Hn. unfold node_picture. cbn [st_colours style_of st_background]. pose proof (AllC n Hn) as En. destruct (cols n) as [[c1 c2] c3]. apply node_rgba in En. destruct En as (N1 & N2 & N3).
      apply Forall_app. split; [destruct (0 <? g_border sz)%Z; [apply Forall_cons; [split; [exact N3|exact Logic.I]|apply Forall_nil]|apply Forall_nil]|]. constructor; [|constructor]. cbn. auto. }
    assert (Fm : forall (A : Type) (f : A -> list (entity F)) l, (forall a, In a l -> Forall coloured (f a)) -> Forall coloured (flat_map f l)).
    { intros A f l H. induction l as [|a l IH]; [constructor|]. cbn. apply Forall_app. split; [apply H; now left|apply IH; intros a' Ha; apply H; now right]. }
    unfold PropsGraph.picture. repeat (apply Forall_app; split).
    - constructor; [exact Bg|constructor].
    - apply Fm. intros p _. apply Edge.
    - apply Fm. intros [x w] Hc. apply Forall_app. split; [apply Edge|apply Nod; exact Hc].
    - apply Fm. intros x Hx. apply Nod. exact Hx.
    - apply Fm. intros s Hs. apply Nod. exact Hs.
    - destruct progress; constructor; [left; reflexivity|constructor].
  Qed.
  (** the largest column of nodes, and the height it needs *)
  Definition most : Z := Z.of_nat (Nat.max (Nat.max (length (sources ts)) (length (claims ts))) (length (variables ts))).
  Definition needed_height : Z := (most * (2 * g_radius sz) + (most - 1) * g_spacing sz)%Z.
  (** A renderer with the PNG backend succeeds exactly if its colour scheme has colours for all nodes and width and height are
      between 1 and 32767; then the image has the marks of exactly the entities of the picture of the data. *)
  Theorem C69_graph st progress :
    (forall p, snd (render_png src_tuple T sz nm text_extents st d progress) = Ok p ->
       p_width p = g_width sz /\ p_height p = needed_height /\
       exists cols P height mss, (forall n, graph_node ts n -> get_node_colour src_tuple (rs_colours st) n = Ok (cols n)) /\ p_marks p = concat mss /\
         Forall2 (shows text_extents (g_width sz)) (PropsGraph.picture sz (style_of nm (rs_colours st) cols) (arrow_head T sz) ts P height progress) mss) /\
    ((exists p, snd (render_png src_tuple T sz nm text_extents st d progress) = Ok p) <->
       (1 <= g_width sz <= 32767)%Z /\ (1 <= needed_height <= 32767)%Z /\ forall n, graph_node ts n -> exists c, get_node_colour src_tuple (rs_colours st) n = Ok c).
  Proof.
    pose proof (build_rep _ _ _ _ Hb) as R. assert (Eh : get_height sz d = needed_height).
    { unfold get_height, needed_height, most. rewrite (rep_ns _ _ _ R), (rep_nc _ _ _ R), (rep_nv _ _ _ R). lia. }
    unfold render_png. rewrite Eh. set (st0 := RState (Some needed_height) (rs_colours st)).
    pose proof (fun e => C51_fails src_tuple T sz nm b impf ts d Hb st0 progress e) as Fl. pose proof (fun n e => C51_bad_colour src_tuple T sz nm b impf ts d Hb st0 progress n e) as Bad.
    pose proof (fun cols => C51_contents src_tuple T sz nm b impf ts d Hb st0 progress cols) as Con. cbn [rs_colours] in *.
    destruct (compile src_tuple T sz nm st0 d progress) as [st' r]. cbn [snd] in *.
    assert (Z1 : forall w, (1 <= w <= 32767)%Z <-> drawable w) by (unfold drawable; lia). rewrite !Z1.
    destruct r as [es|e].
    - set (cols := fun n => match get_node_colour src_tuple (rs_colours st) n with Ok c => c | Err _ => ([], [], []) end).
      assert (AllC : forall n, graph_node ts n -> get_node_colour src_tuple (rs_colours st) n = Ok (cols n)).
      { intros n Hn. unfold cols. destruct (get_node_colour src_tuple (rs_colours st) n) as [c|e] eqn:En; [reflexivity|]. destruct (Bad n e Hn En) as [e' Q]. discriminate. }
      destruct (Con cols AllC) as (P & height & Ees). injection Ees as ->.
      pose proof (picture_coloured st cols P height progress AllC) as Hcol.
      pose proof (C69_marks text_extents _ (g_width sz) needed_height Hcol) as M. destruct (_ && _)%bool eqn:Q in M.
      + destruct M as (p & es' & Ed & Pw & Ph & (mss & Em & Fm) & _). rewrite Ed. cbn [bind].
        assert (D : drawable (g_width sz) /\ drawable needed_height) by (unfold drawable; rewrite !Bool.andb_true_iff, !Z.leb_le in Q; lia). pose proof (proj1 (drawable_spec _ _) D) as [-> _]. split.
        * intros p' [= <-]. split; [exact Pw|]. split; [exact Ph|]. exists cols, P, height, mss. auto.
        * split; [intros _|eauto]. destruct D. split; [assumption|]. split; [assumption|]. intros n Hn. rewrite (AllC n Hn). eauto.
      + rewrite M. cbn [bind]. assert (ND : ~ (drawable (g_width sz) /\ drawable needed_height)).
        { intros [D1 D2]. unfold drawable in *. assert (Tt : (Z.leb 1 (g_width sz) && Z.leb (g_width sz) 32767 && Z.leb 1 needed_height && Z.leb needed_height 32767)%bool = true) by (rewrite !Bool.andb_true_iff, !Z.leb_le; lia). congruence. }
        split; [destruct (negb _); discriminate|]. split; [intros [p Hp]; destruct (negb _); discriminate|]. intros (D1 & D2 & _). tauto.
    - destruct (Fl e eq_refl) as (n & Hn & En). change (rs_colours st0) with (rs_colours st) in En. split; [destruct (negb _); discriminate|]. split; [intros [p Hp]; destruct (negb _); discriminate|]. intros (_ & _ & H). destruct (H n Hn) as [c Hc]. rewrite Hc in En. discriminate.
  Qed.
  (** With the default sizes: the graph of an empty dataset cannot be drawn, and no graph with more than 273 nodes in a column. *)
  Theorem C69_default_sizes st progress : sz = Sizes 800 50 20 3 3 15 -> rs_colours st = DefaultScheme ->
    ((exists p, snd (render_png src_tuple T sz nm text_extents st d progress) = Ok p) <-> (1 <= most <= 273)%Z).
  Proof.
    intros Hs Hc. destruct (C69_graph st progress) as [_ ->]. unfold needed_height. rewrite Hs. cbn [g_width g_radius g_spacing]. split; [lia|]. intros H. split; [lia|]. split; [lia|]. intros n _. rewrite Hc. cbn. eauto.
  Qed.
End GraphPng.

(** ** Non-vacuity *)
Module PngExamples.
  Definition ext (size : XR) (t : pystr) : extents XR := Extents (Fin (INR (length t) * 8)) (Fin 10) (Fin (-8)) (Fin (INR (length t) * 8)) (Fin 0).
  Definition white : colour XR := [Fin 1; Fin 1; Fin 1].
  Definition es : list (entity XR) :=
    [Rectangle (Fin 0) (Fin 0) white (Fin 100) (Fin 100);
     Circle (Fin 10) (Fin 50) [Fin 0; Fin 0; Fin 0] (Fin 10) (Some (Label (Fin 10) (Fin 50) white (lit_str "Vv") (Fin 15) white));
     Circle (Fin 90) (Fin 50) [Fin 0; Fin 0; Fin 0] (Fin 10) (Some (Label (Fin 90) (Fin 50) white (lit_str "a long label") (Fin 15) white))].
  Example drawn : Forall coloured es.
  Proof. repeat constructor; cbn; auto using or_introl. Qed.
  Example drawn_ok : exists p es', draw_entities ext es 100 100 = Ok (p, es').
  Proof. pose proof (C69_marks ext es 100 100 drawn) as H. cbn in H. destruct H as (p & es' & H & _). eauto. Qed.
  (** the second label does not fit on the right: it ends at the edge of the image *)
  Example place : label_lhs (F:=XR) 100 (Fin 96) (Fin 90) = Fin 4.
  Proof. destruct (C69_label_place 100 96 90 ltac:(lra)) as (x0 & -> & _ & H & _). f_equal. destruct (H ltac:(lra)) as (_ & _ & _ & Q). specialize (Q ltac:(lra)). lra. Qed.
  (** a graph that can be drawn *)
  Definition nm : naming nat nat nat nat nat := base_naming (fun n => repeat 49%N n) (fun n => repeat 49%N n) (fun n => repeat 49%N n) Nat.ltb Nat.ltb.
  Example graph : exists d, build false (real_imp None) AlgExamples.vs2 = Ok d /\
    exists p, snd (render_png (fun _ => None) exact_trig (Sizes 800 50 20 3 3 15) nm ext (RState None DefaultScheme) d None) = Ok p.
  Proof. destruct AlgExamples.vs2_builds as [d Hd]. exists d. split; [exact Hd|]. apply (C69_default_sizes _ _ _ _ _ _ _ _ _ Hd (RState None DefaultScheme) None eq_refl eq_refl). unfold most. vm_compute. split; discriminate. Qed.
End PngExamples.
