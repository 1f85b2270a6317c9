(** C50 (layout), C51 (contents) and C55 (independence of history) of drawings. *)
From Coq Require Import NArith String Reals Lra Sorted Psatz.
From Verif Require Import Base Num Sparse Spec Dataset DatasetProofs DatasetRep Iterators Algorithms Results PropsResult PyStr Client PropsOutput Graph GraphRep.

(** ** Specification: the picture of a list of triples *)
Section Picture.
  Context {S V W : Type} {ES : Eqb S} {EV : Eqb V} {EW : Eqb W} {F : Num}.
  (** where the nodes are *)
  Record positions := Positions { at_source : S -> F * F; at_claim : V * W -> F * F; at_variable : V -> F * F }.
  (** the texts, the colours (interior, label, border) of the nodes, and of everything else *)
  Record style := Style {
    st_source : S -> pystr; st_claim : V * W -> pystr; st_variable : V -> pystr;
    st_colours : node S V W -> colour F * colour F * colour F; st_background : colour F; st_edge : colour F; st_progress : colour F
  }.
  Variable sz : sizes.
  Variable y : style.
  (** a node: a border circle if there is a border, and a labelled disc inside it *)
  Definition node_picture (n : node S V W) (text : pystr) (xy : F * F) : list (entity F) :=
    let '((inner, lab, border), (px, py)) := (st_colours y n, xy) in
    (if (0 <? g_border sz)%Z then [Circle px py border (n_ofZ (g_radius sz)) None] else [])
    ++ [Circle px py inner (n_ofZ (g_radius sz - g_border sz)) (Some (Label px py lab text (n_ofZ (g_font sz)) (st_background y)))].
  (** an edge: a line between the two centres, and two strokes of an arrow head, starting from one point *)
  Definition edge_picture (head : F * F -> F * F -> (F * F) * (F * F) * (F * F)) (a b : F * F) : list (entity F) :=
    let '(tip, stroke1, stroke2) := head a b in
    map (fun pq : (F * F) * (F * F) => Line (fst (fst pq)) (snd (fst pq)) (st_edge y) (fst (snd pq)) (snd (snd pq)) (n_ofZ (g_line_width sz)) false) [(a, b); (tip, stroke1); (tip, stroke2)].
  (** background; an edge from a source to each claim it makes; for each claim an edge to its variable and a node; a node for
      each variable and each source; the progress bar *)
  Definition picture head (ts : list (S * V * W)) (P : positions) (height : Z) (progress : option F) : list (entity F) :=
    [Rectangle (n_ofZ 0) (n_ofZ 0) (st_background y) (n_ofZ (g_width sz)) (n_ofZ height)]
    ++ flat_map (fun p => edge_picture head (at_source P (fst p)) (at_claim P (snd p))) (filter (fun p => says ts (fst p) (snd p)) (list_prod (sources ts) (claims ts)))
    ++ flat_map (fun c => edge_picture head (at_claim P c) (at_variable P (fst c)) ++ node_picture (NClaim (fst c) (snd c)) (st_claim y c) (at_claim P c)) (claims ts)
    ++ flat_map (fun x => node_picture (NVariable x) (st_variable y x) (at_variable P x)) (variables ts)
    ++ flat_map (fun s => node_picture (NSource s) (st_source y s) (at_source P s)) (sources ts)
    ++ match progress with
       | Some p => [Rectangle (n_ofZ 0) (n_ofZ (height - 5)) (st_progress y) (n_mul (n_ofZ (g_width sz)) p) (n_ofZ 5)]
       | None => []
       end.
End Picture.
Arguments positions : clear implicits. Arguments style : clear implicits.

(** ** The arrow head of an edge *)
Definition atan2R (y x : R) : R :=
  if rltb 0 x then atan (y / x)
  else if rltb x 0 then (if rltb y 0 then atan (y / x) - PI else atan (y / x) + PI)%R
  else if rltb 0 y then (PI / 2)%R else if rltb y 0 then (- (PI / 2))%R else 0%R.
Definition fin1 (f : R -> R) (x : xr) : xr := match x with Fin a => Fin (f a) | _ => NaN end.
(** exact trigonometry *)
Definition exact_trig : trig XR := Trig (F:=XR) (fun a b => match a, b with Fin y, Fin x => Fin (atan2R y x) | _, _ => NaN end) (fin1 cos) (fin1 sin) (Fin PI).

Definition norm2 (x y : R) : R := sqrt (x * x + y * y).
Lemma norm2_pos x y : (x, y) <> (0, 0)%R -> (0 < norm2 x y)%R.
Proof.
  intros H. apply sqrt_lt_R0. destruct (Req_EM_T x 0) as [->|Hx].
  - assert (y <> 0)%R by congruence. assert (0 < y * y)%R by (apply Rsqr_pos_lt; assumption). lra.
  - assert (0 < x * x)%R by (apply Rsqr_pos_lt; assumption). assert (0 <= y * y)%R by apply Rle_0_sqr. lra.
Qed.
Lemma sqrt_ratio x y : (x <> 0)%R -> (sqrt (1 + (y / x)²) = norm2 x y / Rabs x)%R.
Proof.
  intros Hx. unfold norm2. rewrite <- sqrt_Rsqr_abs. rewrite <- sqrt_div_alt by (apply Rsqr_pos_lt; assumption). f_equal. unfold Rsqr. field. assumption.
Qed.
Lemma cos_atan2 x y : (x, y) <> (0, 0)%R -> cos (atan2R y x) = (x / norm2 x y)%R.
Proof.
  intros H. pose proof (norm2_pos x y H) as Np. unfold atan2R.
  assert (C : (x <> 0)%R -> cos (atan (y / x)) = (Rabs x / norm2 x y)%R).
  { intros Hx. rewrite cos_atan, sqrt_ratio by assumption. pose proof (Rabs_no_R0 x Hx). field. split; lra. }
  destruct (rltb_spec 0 x) as [Hp|Hp]; [rewrite (C ltac:(lra)), Rabs_pos_eq by lra; reflexivity|].
  destruct (rltb_spec x 0) as [Hn|Hn].
  - assert (Ab : Rabs x = (- x)%R) by (apply Rabs_left; assumption). destruct (rltb y 0).
    + rewrite cos_minus, cos_PI, sin_PI, (C ltac:(lra)), Ab. field. lra.
    + rewrite cos_plus, cos_PI, sin_PI, (C ltac:(lra)), Ab. field. lra.
  - assert (x = 0%R) by lra. subst x. replace (0 / norm2 0 y)%R with 0%R by (field; lra). destruct (rltb_spec 0 y); [apply cos_PI2|]. destruct (rltb_spec y 0); [rewrite cos_neg; apply cos_PI2|]. exfalso. apply H. f_equal; lra.
Qed.
Lemma sin_atan2 x y : (x, y) <> (0, 0)%R -> sin (atan2R y x) = (y / norm2 x y)%R.
Proof.
  intros H. pose proof (norm2_pos x y H) as Np. unfold atan2R.
  assert (C : (x <> 0)%R -> sin (atan (y / x)) = (y / x * (Rabs x / norm2 x y))%R).
  { intros Hx. rewrite sin_atan, sqrt_ratio by assumption. pose proof (Rabs_no_R0 x Hx). field. repeat split; lra. }
  destruct (rltb_spec 0 x) as [Hp|Hp]; [rewrite (C ltac:(lra)), Rabs_pos_eq by lra; field; lra|].
  destruct (rltb_spec x 0) as [Hn|Hn].
  - assert (Ab : Rabs x = (- x)%R) by (apply Rabs_left; assumption). destruct (rltb y 0).
    + rewrite sin_minus, cos_PI, sin_PI, (C ltac:(lra)), Ab. field. lra.
    + rewrite sin_plus, cos_PI, sin_PI, (C ltac:(lra)), Ab. field. lra.
  - assert (x = 0%R) by lra. subst x. assert (Ny : norm2 0 y = Rabs y) by (unfold norm2; replace (0 * 0 + y * y)%R with (y²)%R by (unfold Rsqr; ring); apply sqrt_Rsqr_abs).
    rewrite Ny in *. destruct (rltb_spec 0 y) as [Hy|Hy]; [rewrite sin_PI2, Rabs_pos_eq by lra; field; lra|].
    destruct (rltb_spec y 0) as [Hy'|Hy']; [rewrite sin_neg, sin_PI2, Rabs_left by lra; field; lra|]. exfalso. apply H. f_equal; lra.
Qed.

(** the arrow head compile_edge draws *)
Definition arrow_head {F : Num} (T : trig F) (sz : sizes) (a b : F * F) : (F * F) * (F * F) * (F * F) :=
  let incl := t_atan2 T (n_sub (snd b) (snd a)) (n_sub (fst b) (fst a)) in
  let tip := vplus b (rotate T incl (n_ofZ (- g_radius sz))) in
  let stroke s := vplus tip (rotate T (n_add (n_mul (n_ofZ s) (n_div (t_pi T) (n_ofZ 7))) incl) (n_ofZ (-10))) in
  (tip, stroke (-1)%Z, stroke 1%Z).

Section Contents.
  Context {S V W LS LV : Type} {ES : Eqb S} {EV : Eqb V} {EW : Eqb W} {EL : Eqb LV} {F : Num} {FOK : NumOK F}.
  Variable src_tuple : S -> option (option (V * W)).
  Variable T : trig F.
  Variable sz : sizes.
  Variable nm : naming S V W LS LV.

  (** the style a renderer uses: labels from its naming, colours from its scheme *)
  Definition style_of (sch : scheme S V W F) (cols : node S V W -> colour F * colour F * colour F) : style S V W F :=
    Style (fun s => nm_show_src nm (nm_src nm s)) (fun c => nm_claim nm (fst c) (snd c)) (fun x => nm_show_var nm (nm_var nm x)) cols
      (get_background_colour sch) (get_edge_colour sch) (get_animation_progress_colour sch).
  (** the nodes of the graph *)
  Definition graph_node (ts : list (S * V * W)) (n : node S V W) : Prop :=
    match n with NSource s => In s (sources ts) | NClaim x w => In (x, w) (claims ts) | NVariable x => In x (variables ts) end.

  Lemma all_nodes_In ts n : In n (all_nodes ts) <-> graph_node ts n.
  Proof.
    unfold all_nodes. rewrite !in_app_iff, !in_map_iff. destruct n as [s|x w|x]; cbn; split.
    - intros [(c & E & _)|[(x & E & _)|(s' & E & H)]]; congruence.
    - intros H. right; right. eauto.
    - intros [([x' w'] & E & H)|[(x' & E & _)|(s' & E & H)]]; cbn in *; congruence.
    - intros H. left. exists (x, w). auto.
    - intros [(c & E & _)|[(x' & E & H)|(s' & E & H)]]; congruence.
    - intros H. right; left. eauto.
  Qed.

  Section Built.
    Variables (b : bool) (impf : option (V -> W -> W -> option F)) (ts : list (S * V * W)) (d : dataset S V W F).
    Hypothesis Hb : build b impf ts = Ok d.

    Lemma picture_eq sch cols height progress : drawing_of T sz nm sch ts cols height progress =
      picture sz (style_of sch cols) (arrow_head T sz) ts (Positions (src_at sz nm ts height) (claim_at sz nm ts height) (var_at sz nm ts height)) height progress.
    Proof.
      unfold drawing_of, picture, compile_background, compile_progress. cbn [st_background st_progress style_of at_source at_claim at_variable].
      assert (Ee : forall p q, compile_edge T sz sch p q = edge_picture sz (style_of sch cols) (arrow_head T sz) p q) by (intros [? ?] [? ?]; reflexivity).
      assert (En : forall n text xy, node_entities sz sch (cols n) text xy = node_picture sz (style_of sch cols) n text xy).
      { intros n text [px py]. unfold node_entities, node_picture. cbn [st_colours style_of]. destruct (cols n) as [[? ?] ?]. reflexivity. }
      apply f_equal2; [reflexivity|]. apply f_equal2; [apply flat_map_ext; intros; apply Ee|]. apply f_equal2; [apply flat_map_ext; intros; rewrite Ee, En; reflexivity|].
      apply f_equal2; [apply flat_map_ext; intros; apply En|]. apply f_equal2; [apply flat_map_ext; intros; apply En|reflexivity].
    Qed.

    (** C51: whenever the colour scheme has colours for all nodes, compile draws exactly the picture of the data: one node
        per source, claim and variable, one edge per claim made and one from each claim to its variable, nothing else *)
    Theorem C51_contents st progress cols : (forall n, graph_node ts n -> get_node_colour src_tuple (rs_colours st) n = Ok (cols n)) ->
      exists P height, snd (compile src_tuple T sz nm st d progress) = Ok (picture sz (style_of (rs_colours st) cols) (arrow_head T sz) ts P height progress).
    Proof.
      intros Hc. pose proof (build_rep _ _ _ _ Hb) as R. unfold compile. cbn [snd]. set (height := match rs_height st with None | Some 0%Z => _ | Some h => h end). clearbody height.
      set (cols' := fun n => match get_node_colour src_tuple (rs_colours st) n with Ok c => c | Err _ => cols n end).
      exists (Positions (src_at sz nm ts height) (claim_at sz nm ts height) (var_at sz nm ts height)), height.
      rewrite (compile_at_char src_tuple T sz nm (rs_colours st) ts impf d R height progress cols').
      2:{ intros n c E. unfold cols'. now rewrite E. }
      assert (FN : first_error src_tuple (rs_colours st) (all_nodes ts) = None).
      { apply first_error_None. intros n Hn. apply all_nodes_In in Hn. eauto. }
      rewrite FN. f_equal. rewrite picture_eq. unfold picture, node_picture. cbn [st_colours style_of st_claim st_variable st_source st_background st_progress].
      assert (Ec : forall n, graph_node ts n -> cols' n = cols n) by (intros n Hn; unfold cols'; now rewrite (Hc n Hn)).
      apply f_equal2; [reflexivity|]. apply f_equal2; [reflexivity|]. apply f_equal2.
      - rewrite !flat_map_concat_map. f_equal. apply map_ext_in. intros [x w] H. f_equal. cbn [fst snd]. rewrite (Ec (NClaim x w)) by exact H. reflexivity.
      - apply f_equal2; [|apply f_equal2; [|reflexivity]].
        + rewrite !flat_map_concat_map. f_equal. apply map_ext_in. intros x H. rewrite (Ec (NVariable x)) by exact H. reflexivity.
        + rewrite !flat_map_concat_map. f_equal. apply map_ext_in. intros s H. rewrite (Ec (NSource s)) by exact H. reflexivity.
    Qed.
    (** the only way to fail is that the colour scheme fails for some node *)
    Theorem C51_fails st progress e : snd (compile src_tuple T sz nm st d progress) = Err e -> exists n, graph_node ts n /\ get_node_colour src_tuple (rs_colours st) n = Err e.
    Proof.
      pose proof (build_rep _ _ _ _ Hb) as R. unfold compile. cbn [snd]. set (height := match rs_height st with None | Some 0%Z => _ | Some h => h end). clearbody height.
      rewrite (compile_at_char src_tuple T sz nm (rs_colours st) ts impf d R height progress (fun n => match get_node_colour src_tuple (rs_colours st) n with Ok c => c | Err _ => ([], [], []) end)).
      2:{ intros n c E. now rewrite E. }
      assert (G : forall l, first_error src_tuple (rs_colours st) l = Some e -> exists n, In n l /\ get_node_colour src_tuple (rs_colours st) n = Err e).
      { induction l as [|n l IH]; cbn [first_error]; [discriminate|]. destruct (get_node_colour src_tuple (rs_colours st) n) eqn:E.
        - intros H. destruct (IH H) as (m & Hm & Em). exists m. split; [now right|exact Em].
        - intros [= <-]. exists n. split; [now left|exact E]. }
      destruct (first_error src_tuple (rs_colours st) (all_nodes ts)) as [e'|] eqn:E; [|discriminate]. intros [= ->].
      destruct (G _ E) as (n & Hn & En). exists n. split; [now apply all_nodes_In|exact En].
    Qed.

    (** and it does fail then *)
    Theorem C51_bad_colour st progress n e : graph_node ts n -> get_node_colour src_tuple (rs_colours st) n = Err e -> exists e', snd (compile src_tuple T sz nm st d progress) = Err e'.
    Proof.
      intros Hn En. pose proof (build_rep _ _ _ _ Hb) as R. unfold compile. cbn [snd]. set (height := match rs_height st with None | Some 0%Z => _ | Some h => h end). clearbody height.
      rewrite (compile_at_char src_tuple T sz nm (rs_colours st) ts impf d R height progress (fun n => match get_node_colour src_tuple (rs_colours st) n with Ok c => c | Err _ => ([], [], []) end)).
      2:{ intros n' c E. now rewrite E. }
      destruct (first_error src_tuple (rs_colours st) (all_nodes ts)) as [e'|] eqn:E; [eauto|]. exfalso. apply all_nodes_In in Hn.
      revert Hn E. induction (all_nodes ts) as [|m l IH]; [contradiction|]. cbn [first_error]. intros [->|Hn]; [rewrite En; discriminate|]. destruct (get_node_colour src_tuple (rs_colours st) m); [auto|discriminate].
    Qed.

    (** ** C55: what render draws does not depend on what the renderer did before, whereas compile keeps an old height *)
    Inductive gop := GRender (d' : dataset S V W F) (progress : option F) | GCompile (d' : dataset S V W F) (progress : option F) | GAnimate (clock : nat -> F) (fuel : nat) (o : aobj S V W F) (d' : dataset S V W F) (show : bool).
    Definition gstep (st : rstate S V W F) (op : gop) : rstate S V W F :=
      match op with
      | GRender d' p => fst (render src_tuple T sz nm st d' p)
      | GCompile d' p => fst (compile src_tuple T sz nm st d' p)
      | GAnimate clock fuel o d' show => fst (fst (get_frames src_tuple T sz nm clock fuel st o d' show))
      end.
    Definition after (st : rstate S V W F) (ops : list gop) : rstate S V W F := fold_left gstep ops st.
    Definition set_colours (st : rstate S V W F) (sch : scheme S V W F) : rstate S V W F := RState (rs_height st) sch.
    (** after any operations on renderers that have the same colours, render gives the same drawing (or error) *)
    Theorem C55_render h h' sch ops ops' d' progress :
      snd (render src_tuple T sz nm (set_colours (after (RState h sch) ops) sch) d' progress) = snd (render src_tuple T sz nm (set_colours (after (RState h' sch) ops') sch) d' progress).
    Proof. unfold render, set_colours. cbn [rs_colours]. reflexivity. Qed.
    (** only animations change the colours: after drawings alone they need not be set again *)
    Definition no_animation (ops : list gop) : Prop := forall clock fuel o d' show, ~ In (GAnimate clock fuel o d' show) ops.
    Theorem C55_render_only h h' sch ops ops' d' progress : no_animation ops -> no_animation ops' ->
      snd (render src_tuple T sz nm (after (RState h sch) ops) d' progress) = snd (render src_tuple T sz nm (after (RState h' sch) ops') d' progress).
    Proof.
      assert (G : forall ops st, no_animation ops -> rs_colours (after st ops) = rs_colours st).
      { intros l. unfold after. induction l as [|op l IH]; intros st Hl; [reflexivity|]. cbn [fold_left]. rewrite IH by (intros ? ? ? ? ? H; eapply Hl; right; exact H).
        destruct op as [d0 p|d0 p|clock fuel o d0 show]; [reflexivity|reflexivity|]. exfalso. eapply Hl. now left. }
      intros H1 H2. unfold render. rewrite !G by assumption. reflexivity.
    Qed.
    (** compile with a height left over from before draws with that height *)
    Theorem C55_compile_keeps_height h sch d' progress es : h <> 0%Z -> snd (compile src_tuple T sz nm (RState (Some h) sch) d' progress) = Ok es ->
      exists rest, es = Rectangle (n_ofZ 0) (n_ofZ 0) (get_background_colour sch) (n_ofZ (g_width sz)) (n_ofZ h) :: rest.
    Proof.
      intros Hh. unfold compile. cbn [rs_height rs_colours snd]. assert (E : match h with 0%Z => get_height sz d' | _ => h end = h) by (destruct h; congruence). 
      replace (match h with 0%Z => get_height sz d' | Z.pos _ | Z.neg _ => h end) with h. unfold compile_at, compile_background.
      repeat match goal with |- (bind ?m _ = Ok es -> _) => destruct m; cbn [bind]; [|discriminate] end. intros [= <-]. cbn [app]. eauto.
    Qed.
  End Built.
End Contents.
