(** Theorems added after tests against wrong programs (seeded/LOG.jsonl): the alphabetical order of names, the texts and sizes of web pictures,
    the shades of the colour scale. *)
From Coq Require Import NArith String Sorted Permutation Reals Lra.
From Verif Require Import Base Num Sparse Spec Dataset DatasetProofs DatasetRep Iterators Algorithms Results PropsResult PyStr Client PropsClient PropsOutput
  Graph GraphRep PropsGraph PropsLayout PropsColour Front PropsCli PropsWeb Matrix File PropsFile.

(** ** Alphabetical order, as Python orders strings: at the first difference the smaller code point, a proper prefix first *)
Definition before (s t : pystr) : Prop :=
  exists common, (exists c t', s = common /\ t = common ++ c :: t') \/ (exists c d s' t', s = common ++ c :: s' /\ t = common ++ d :: t' /\ (c < d)%N).
Theorem C45_name_order s t : str_ltb s t = true <-> before s t.
Proof.
  split.
  - revert t. induction s as [|c s IH]; intros [|d t] H; cbn in H; try discriminate.
    + exists []. left. exists d, t. auto.
    + destruct (N.eqb_spec c d) as [->|N].
      * destruct (IH t H) as (m & [(x & t' & -> & ->)|(x & y & s' & t' & -> & -> & L)]); exists (d :: m); [left; exists x, t'; auto|right; exists x, y, s', t'; auto].
      * exists []. right. exists c, d, s, t. repeat split. now apply N.ltb_lt.
  - intros (m & [(x & t' & -> & ->)|(x & y & s' & t' & -> & -> & L)]).
    + induction m as [|c m IH]; [reflexivity|]. cbn. now rewrite N.eqb_refl.
    + induction m as [|c m IH]; cbn; [|now rewrite N.eqb_refl]. destruct (N.eqb_spec x y); [lia|]. now apply N.ltb_lt.
Qed.
(** The message about unused parameters lists each of them once, in alphabetical order. *)
Theorem C45_message c (names : list pystr) : NoDup names ->
  exists sorted, Permutation sorted names /\ StronglySorted before sorted /\
    ignored_message c names = (lit_str "Ignored parameters for '" ++ class_name c ++ lit_str "': " ++ join (lit_str ", ") sorted)%list.
Proof.
  intros ND. exists (sort_with str_ltb names). pose proof (sort_perm str_ltb names) as P. split; [exact P|]. split; [|reflexivity].
  pose proof (sort_sorted str_ltb names str_ltb_total) as So. assert (ND' : NoDup (sort_with str_ltb names)) by (eapply Permutation_NoDup; [apply Permutation_sym, P|exact ND]).
  clear P. induction So as [|x l So IH Hx]; [constructor|]. inversion ND' as [|? ? Nx NDl]; subst. constructor; [auto|].
  rewrite Forall_forall in Hx |- *. intros y Hy. specialize (Hx y Hy). apply C45_name_order. destruct str_ltb_total as (_ & _ & To). destruct (To x y) as [H|[->|H]]; [exact H|contradiction|congruence].
Qed.

(** ** Numbers as labels: "4.0" is shown as "4", "4.5" and "10" as they are *)
Theorem C57_value_text (s : pystr) : strip_point_zero (s ++ lit_str ".0") = s /\ ((forall p, s <> p ++ lit_str ".0") -> strip_point_zero s = s).
Proof.
  unfold strip_point_zero. split.
  - rewrite app_length. change (length (lit_str ".0")) with 2. replace (length s + 2 - 2) with (length s) by lia.
    rewrite skipn_app, skipn_all, Nat.sub_diag. cbn [skipn app]. rewrite beq_refl. replace (Nat.leb 2 (length s + 2)) with true by (symmetry; apply Nat.leb_le; lia).
    cbn [andb]. rewrite firstn_app, firstn_all, Nat.sub_diag. cbn [firstn]. apply app_nil_r.
  - intros N. destruct (beq_spec (skipn (length s - 2) s) (lit_str ".0")) as [E|]; [|reflexivity]. exfalso.
    apply (N (firstn (length s - 2) s)). rewrite <- E. symmetry. apply firstn_skipn.
Qed.

(** ** Pictures in web answers *)
Section Web.
  Context {W : Type} {F : Num} (show_nat : nat -> pystr) (show_w : W -> pystr).
  (** sources s1, s2, ...; variables v1, v2, ...; claims like v2=7 *)
  Theorem C48_labels i j w :
    let nm := web_naming show_nat show_w in
    nm_show_src nm (nm_src nm i) = (lit_str "s" ++ show_nat (i + 1))%list /\
    nm_show_var nm (nm_var nm j) = (lit_str "v" ++ show_nat (j + 1))%list /\
    nm_claim nm j w = (lit_str "v" ++ show_nat (j + 1) ++ lit_str "=" ++ strip_point_zero (show_w w))%list.
  Proof. repeat split. Qed.
  (** 800 wide, nodes of radius 40, 20 apart, lines and borders of width 3, text of size 20 *)
  Theorem C48_sizes : (g_width web_sizes, g_radius web_sizes, g_spacing web_sizes, g_line_width web_sizes, g_border web_sizes, g_font web_sizes) = (800, 40, 20, 3, 3, 20)%Z.
  Proof. reflexivity. Qed.
End Web.

(** ** The shades of the scale get darker: a higher level never gives a lighter colour in any channel, and the two ends are
    almost white and a dark green *)
Local Open Scope R_scope.
Definition scale : list (Z * Z * Z) := [(247, 252, 245); (229, 245, 224); (199, 233, 192); (161, 217, 155); (116, 196, 118); (65, 171, 93); (35, 139, 69); (0, 109, 44); (0, 68, 27)]%Z.
Definition of_rgb (p : Z * Z * Z) : colour XR := match p with (r, g, b) => [Fin (IZR r / 255); Fin (IZR g / 255); Fin (IZR b / 255)] end.
Lemma colours_scale : COLOURS (F:=XR) = map of_rgb scale.
Proof.
  assert (D : forall z, lit (F:=XR) z 255 = Fin (IZR z / 255)) by (intros z; unfold lit; cbn; unfold reqb; destruct (Req_EM_T 255 0); [lra|reflexivity]).
  unfold COLOURS, rgb. rewrite !D. reflexivity.
Qed.
Definition darker (c c' : colour XR) : Prop := exists r g b r' g' b', c = [Fin r; Fin g; Fin b] /\ c' = [Fin r'; Fin g'; Fin b'] /\
  0 <= r <= r' /\ r' <= 1 /\ 0 <= g <= g' /\ g' <= 1 /\ 0 <= b <= b' /\ b' <= 1.
Lemma scale_darker i j ci cj : (i <= j)%nat -> nth_error (COLOURS (F:=XR)) i = Some ci -> nth_error (COLOURS (F:=XR)) j = Some cj -> darker cj ci.
Proof.
  intros L Hi Hj. rewrite colours_scale, nth_error_map in Hi, Hj.
  destruct (nth_error scale i) as [[[r g] b]|] eqn:Ei; [|discriminate]. destruct (nth_error scale j) as [[[r' g'] b']|] eqn:Ej; [|discriminate]. injection Hi as <-. injection Hj as <-.
  assert (Q : (forallb (fun i => forallb (fun j => negb (Nat.leb i j) || match nth_error scale i, nth_error scale j with
      | Some (r, g, b), Some (r', g', b') => (0 <=? r') && (r' <=? r) && (r <=? 255) && (0 <=? g') && (g' <=? g) && (g <=? 255) && (0 <=? b') && (b' <=? b) && (b <=? 255) | _, _ => true end)%bool (seq 0 9)) (seq 0 9) = true)%Z) by (vm_compute; reflexivity).
  assert (Ri : (i < 9)%nat) by (change 9%nat with (length scale); apply nth_error_Some; congruence). assert (Rj : (j < 9)%nat) by (change 9%nat with (length scale); apply nth_error_Some; congruence).
  rewrite forallb_forall in Q. specialize (Q i ltac:(apply in_seq; lia)). rewrite forallb_forall in Q. specialize (Q j ltac:(apply in_seq; lia)).
  apply orb_true_iff in Q. destruct Q as [Q|Q]; [apply negb_true_iff, Nat.leb_gt in Q; lia|]. rewrite Ei, Ej in Q.
  repeat (apply andb_true_iff in Q; destruct Q as [Q ?]). repeat match goal with H : (_ <=? _)%Z = true |- _ => apply Z.leb_le, IZR_le in H end.
  do 6 eexists. split; [reflexivity|]. split; [reflexivity|]. lra.
Qed.
Theorem C52_darker l l' c lab c' lab' : 0 <= l <= l' -> get_graded_colours (Fin l : XR) = Ok (c, lab) -> get_graded_colours (Fin l' : XR) = Ok (c', lab') -> darker c' c.
Proof.
  intros H E E'. destruct (C52_graded l ltac:(lra)) as (k & [c1 lb1] & E1 & Sh & B). destruct (C52_graded l' ltac:(lra)) as (k' & [c2 lb2] & E1' & Sh' & B').
  rewrite E in E1. injection E1 as <- <-. rewrite E' in E1'. injection E1' as <- <-. unfold shade in Sh, Sh'.
  destruct (nth_error COLOURS k) as [x|] eqn:N1; [|discriminate]. destruct (nth_error COLOURS k') as [x'|] eqn:N2; [|discriminate]. injection Sh as <- _. injection Sh' as <- _.
  apply (scale_darker k k'); auto. destruct (le_lt_dec k k') as [|Lt]; [assumption|exfalso]. assert (Lr : INR k' + 1 <= INR k) by (rewrite <- S_INR; apply le_INR; lia).
  destruct B as [[K B]|[K B]]; destruct B' as [[K' B']|[K' B']]; try lra; try lia. rewrite K in Lr. change (INR 8) with (INR 8) in Lr. replace (INR 8) with 8 in Lr by (rewrite INR_IZR_INZ; reflexivity). lra.
Qed.
(** the lightest and the darkest shade *)
Theorem C52_ends : (forall l, 0 <= l < 1 / 9 -> get_graded_colours (Fin l : XR) = Ok ([Fin (247 / 255); Fin (252 / 255); Fin (245 / 255)], black)) /\
  (forall l, 8 / 9 <= l -> get_graded_colours (Fin l : XR) = Ok ([Fin 0; Fin (68 / 255); Fin (27 / 255)], white)).
Proof.
  split; intros l Hl.
  - destruct (C52_graded l ltac:(lra)) as (k & [c lab] & E & Sh & B). rewrite E. rewrite (C52_label _ _ _ E). destruct (Rlt_dec l (1 / 2)); [|lra].
    assert (K : k = 0%nat). { destruct B as [[_ B]|[_ B]]; [|lra]. destruct k as [|k]; [reflexivity|]. rewrite S_INR in B. pose proof (pos_INR k). lra. }
    subst k. unfold shade in Sh. rewrite colours_scale in Sh. injection Sh as <- _. reflexivity.
  - destruct (C52_graded l ltac:(lra)) as (k & [c lab] & E & Sh & B). rewrite E. rewrite (C52_label _ _ _ E). destruct (Rlt_dec l (1 / 2)); [lra|].
    assert (K : k = 8%nat). { destruct B as [[K B]|[K _]]; [|exact K]. exfalso. assert (INR k + 1 <= 8) by (rewrite <- S_INR; replace 8 with (INR 8) by (rewrite INR_IZR_INZ; reflexivity); apply le_INR; lia). lra. }
    subst k. unfold shade in Sh. rewrite colours_scale in Sh. injection Sh as <- _. do 3 f_equal. f_equal. lra.
Qed.

(** ** What counts as surrounding whitespace (str.strip): the 29 white space characters of Unicode, listed *)
Definition white_space : list pychar :=
  [9; 10; 11; 12; 13; 28; 29; 30; 31; 32; 133; 160; 5760; 8192; 8193; 8194; 8195; 8196; 8197; 8198; 8199; 8200; 8201; 8202; 8232; 8233; 8239; 8287; 12288]%N.
Lemma is_space_listed c : is_space c = true <-> In c white_space.
Proof.
  unfold is_space. rewrite !orb_true_iff, !andb_true_iff, !N.leb_le, !N.eqb_eq. unfold white_space. cbn [In]. split; [|intuition lia].
  intros H.
  assert (Q : (c = 9 \/ c = 10 \/ c = 11 \/ c = 12 \/ c = 13 \/ c = 28 \/ c = 29 \/ c = 30 \/ c = 31 \/ c = 32 \/ c = 133 \/ c = 160 \/ c = 5760 \/ c = 8192 \/ c = 8193 \/ c = 8194 \/ c = 8195 \/ c = 8196 \/ c = 8197 \/ c = 8198 \/ c = 8199
    \/ c = 8200 \/ c = 8201 \/ c = 8202 \/ c = 8232 \/ c = 8233 \/ c = 8239 \/ c = 8287 \/ c = 12288)%N) by lia.
  intuition.
Qed.
(** strip cuts the longest runs of them off both ends and nothing else *)
Theorem C10_strip s t : strip s = t <->
  exists before after, s = before ++ t ++ after /\ (forall c, In c before -> In c white_space) /\ (forall c, In c after -> In c white_space) /\
    (forall c t', t = c :: t' -> ~ In c white_space) /\ (forall c t', t = t' ++ [c] -> ~ In c white_space).
Proof.
  assert (NE : no_edge_space t <-> (forall c t', t = c :: t' -> ~ In c white_space) /\ (forall c t', t = t' ++ [c] -> ~ In c white_space)).
  { unfold no_edge_space. split.
    - intros H. split.
      + intros c t' -> Hc. apply is_space_listed in Hc. destruct H as [H _]. cbn in H. congruence.
      + intros c t' -> Hc. apply is_space_listed in Hc. destruct H as [_ H]. rewrite rev_app_distr in H. cbn in H. congruence.
    - intros [H1 H2]. split.
      + destruct t as [|c t']; [exact Logic.I|]. specialize (H1 c t' eq_refl). destruct (is_space c) eqn:Q; [|reflexivity]. apply is_space_listed in Q. contradiction.
      + destruct (rev t) as [|c r] eqn:Er; [exact Logic.I|]. assert (E : t = rev r ++ [c]) by (rewrite <- (rev_involutive t), Er; reflexivity). specialize (H2 c _ E). destruct (is_space c) eqn:Q; [|reflexivity]. apply is_space_listed in Q. contradiction. }
  split.
  - intros <-. destruct (strip_decomp s) as (a & b & Ha & Hb & E & Hn). exists a, b. split; [exact E|]. split; [intros c Hc; apply is_space_listed; now apply Ha|]. split; [intros c Hc; apply is_space_listed; now apply Hb|]. now apply NE.
  - intros (a & b & -> & Ha & Hb & Hn). apply strip_unique; [intros c Hc; apply is_space_listed; now apply Ha|intros c Hc; apply is_space_listed; now apply Hb|now apply NE].
Qed.
Example C10_strip_met : strip ([12288; 9] ++ lit_str "1, 2" ++ [8239])%N = lit_str "1, 2".
Proof. reflexivity. Qed.

(** ** The characters that separate things, as code points: 10 is "\n", 9 is "\t", 44 is ",", 61 is "=", 32 is " " *)
Theorem C10_separators (line : pystr) (lines : list pystr) : ~ In 10%N line -> ~ In 44%N line ->
  split_on newline (line ++ 10%N :: join [10%N] lines) = line :: split_on newline (join [10%N] lines) /\
  forall rest, split_row (line ++ 44%N :: rest) = strip line :: split_row rest.
Proof.
  intros H1 H2. assert (G : forall c l r, ~ In c l -> split_on c (l ++ c :: r) = l :: split_on c r).
  { clear. intros c l r H. induction l as [|x l IH]; cbn; [now rewrite N.eqb_refl|]. destruct (N.eqb_spec x c) as [->|N]; [exfalso; apply H; now left|]. rewrite IH by (intros Q; apply H; now right). reflexivity. }
  split; [exact (G 10%N line _ H1)|]. intros rest. unfold split_row. exact (f_equal (map strip) (G 44%N line rest H2)).
Qed.
(** so the text of a matrix has a line feed between rows and a comma between cells *)
Theorem C11_separators {C} (show : C -> pystr) (m : matrix C) :
  to_csv show m = join [10%N] (map (fun row => join [44%N] (map (fun c => match c with None => [] | Some v => show v end) row)) m).
Proof. reflexivity. Qed.
Theorem C67_separators s x (vals : list pystr) rest : (forall f, In f (s :: x :: vals) -> ~ In 9%N f /\ ~ In 10%N f) ->
  file_lines (join [9%N] (s :: x :: vals) ++ 10%N :: rest) = (join [9%N] (s :: x :: vals) ++ [10%N]) :: file_lines rest /\
  tsv_tuple (join [9%N] (s :: x :: vals)) = Some (s, x, vals).
Proof.
  intros H. assert (J : ~ In 10%N (join [9%N] (s :: x :: vals))).
  { assert (G : forall l : list pystr, (forall f, In f l -> ~ In 10%N f) -> ~ In 10%N (join [9%N] l)).
    { clear. induction l as [|f l IH]; intros H; [intros []|]. destruct l as [|g l]; [apply H; now left|]. change (join [9%N] (f :: g :: l)) with (f ++ [9%N] ++ join [9%N] (g :: l)). intros Q. apply in_app_or in Q. destruct Q as [Q|Q]; [apply (H f); [now left|exact Q]|]. apply in_app_or in Q. destruct Q as [[Q|[]]|Q]; [discriminate|]. revert Q. apply IH. intros f' Hf. apply H. now right. }
    apply G. intros f Hf. now apply H. }
  split; [exact (lines_cons _ rest J)|]. unfold tsv_tuple.
  assert (G : forall (l : list pystr), l <> [] -> (forall f, In f l -> ~ In 9%N f) -> split_on tab (join [9%N] l) = l).
  { clear. assert (G1 : forall c l r, ~ In c l -> split_on c (l ++ c :: r) = l :: split_on c r).
    { intros c l r H. induction l as [|y l IH]; cbn; [now rewrite N.eqb_refl|]. destruct (N.eqb_spec y c) as [->|N]; [exfalso; apply H; now left|]. rewrite IH by (intros Q; apply H; now right). reflexivity. }
    assert (G2 : forall c l, ~ In c l -> split_on c l = [l]).
    { intros c l H. induction l as [|y l IH]; [reflexivity|]. cbn. destruct (N.eqb_spec y c) as [->|N]; [exfalso; apply H; now left|]. rewrite IH by (intros Q; apply H; now right). reflexivity. }
    induction l as [|f l IH]; intros NE H; [congruence|]. destruct l as [|g l]; [apply (G2 9%N); apply H; now left|]. change (join [9%N] (f :: g :: l)) with (f ++ 9%N :: join [9%N] (g :: l)). rewrite (G1 9%N) by (apply H; now left). f_equal. apply IH; [discriminate|]. intros f' Hf. apply H. now right. }
  rewrite G; [reflexivity|discriminate|]. intros f Hf. now apply H.
Qed.
Theorem C44_separator {F : Num} (pfloat : pystr -> option F) decimal s : ~ In 61%N s <-> algorithm_parameter pfloat decimal s = Err BadParameterForm.
Proof. exact (C44_no_equals_sign pfloat decimal s). Qed.
(** the class each algorithm label stands for, by the name shown to the user *)
Theorem C45_class_names c : match algorithm_cls (lit_str "average_log"), algorithm_cls (lit_str "investment"), algorithm_cls (lit_str "pooled_investment"), algorithm_cls (lit_str "sums") with
  Ok a1, Ok a2, Ok a3, Ok a4 => map class_name [a1; a2; a3; a4] = map lit_str ["AverageLog"; "Investment"; "PooledInvestment"; "Sums"]%string | _, _, _, _ => False end /\
  match algorithm_cls (lit_str "usums"), algorithm_cls (lit_str "truthfinder"), algorithm_cls (lit_str "crh"), algorithm_cls (lit_str "voting") with
  Ok a1, Ok a2, Ok a3, Ok a4 => map class_name [a1; a2; a3; a4] = map lit_str ["UnboundedSums"; "TruthFinder"; "CRH"; "MajorityVoting"]%string | _, _, _, _ => False end /\
  (forall l, algorithm_cls l = Ok c -> In l (map lit_str ["average_log"; "investment"; "pooled_investment"; "sums"; "usums"; "truthfinder"; "crh"; "voting"]%string)).
Proof.
  split; [reflexivity|]. split; [reflexivity|]. intros l H. unfold algorithm_cls in H. destruct (dget alg_labels l) eqn:E; [|discriminate]. apply dget_In in E. exact (in_map fst _ _ E).
Qed.
(** the text on a claim's node: variable, blank, equals sign, blank, value *)
Theorem C51_claim_text {S V W} (show_s : S -> pystr) (show_v : V -> pystr) (show_w : W -> pystr) lt_s lt_v x w :
  nm_claim (base_naming show_s show_v show_w lt_s lt_v) x w = show_v x ++ [32; 61; 32]%N ++ show_w w.
Proof. reflexivity. Qed.
Example C67_separators_met : forall f, In f (lit_str "s" :: lit_str "x" :: [lit_str "1"; lit_str "2"]) -> ~ In 9%N f /\ ~ In 10%N f.
Proof. intros f Hf. cbn in Hf. intuition (subst; cbn in *; intuition discriminate). Qed.

(** ** The default colours: fill, text and border of source, claim and variable nodes *)
Theorem C52_default_colours {S V W} {ES : Eqb S} {EV : Eqb V} {EW : Eqb W} (src_tuple : S -> option (option (V * W))) (n : node S V W) :
  let grey := [Fin (15 / 100); Fin (15 / 100); Fin (15 / 100)] in let white := [Fin 1; Fin 1; Fin 1] in
  get_node_colour (F:=XR) src_tuple DefaultScheme n =
    Ok (match n with
        | NSource _ => [Fin (133 / 1000); Fin (400 / 1000); Fin (400 / 1000)]
        | NClaim _ _ => [Fin (478 / 1000); Fin (624 / 1000); Fin (208 / 1000)]
        | NVariable _ => [Fin (667 / 1000); Fin (224 / 1000); Fin (224 / 1000)]
        end, white, grey) /\
  get_node_colour (F:=XR) src_tuple PlainScheme n = Ok (white, [Fin 0; Fin 0; Fin 0], [Fin 0; Fin 0; Fin 0]).
Proof.
  assert (L : forall a d, IZR d <> 0%R -> @lit XR a d = Fin (IZR a / IZR d)) by (intros a d Hd; unfold lit; cbn [XR n_div n_ofZ]; now apply xdiv_fin).
  cbv zeta. split; [|reflexivity]. cbn [get_node_colour]. unfold default_node_colour, rgb, Graph.white. cbn [XR n_ofZ]. destruct n; rewrite !L by lra; reflexivity.
Qed.
(** true and false in a previous result count as 1 and 0 *)
Theorem C48_booleans {F : Num} (oset : list pystr -> list pystr) k b (y : F) : oset [k] = [k] ->
  raw_diff_scores oset [(k, JvBool b)] [(k, y)] = Ok [(k, n_sub y (n_ofZ (if b then 1 else 0)))].
Proof.
  intros H. unfold raw_diff_scores. cbn [dkeys map fst]. unfold common. cbn [filter]. unfold mem. cbn [existsb]. rewrite beq_refl. cbn [orb distinct filter]. rewrite H. cbn [mapM dget find fst snd option_map]. rewrite beq_refl. reflexivity.
Qed.
