(** C52 (gradient colours), C53 (JSON form of drawings), C54 (animations). *)
From Coq Require Import NArith String Reals Lra Psatz.
From Flocq Require Import Core IEEE754.BinarySingleNaN.
From Verif Require Import Base Num Sparse Spec Dataset DatasetProofs DatasetRep Iterators Algorithms Results PropsResult PyStr Client PropsOutput Float Graph GraphRep PropsRun PropsGraph PropsAlg.

(** * C52 *)
Section Graded.
  Context {F : Num}.
  (** colour number k of the nine, with the label colour for the level *)
  Definition shade (k : nat) (level : F) : option (colour F * colour F) :=
    option_map (fun c => (c, if n_ltb level (lit 1 2) then black else white)) (nth_error COLOURS k).
  Lemma graded_index (level : F) k : n_trunc (n_mul level (n_ofZ 9)) = Some k -> (0 <= k)%Z ->
    exists c, get_graded_colours level = Ok c /\ shade (Z.to_nat (Z.min k 8)) level = Some c.
  Proof.
    intros E Hk. unfold get_graded_colours. cbv zeta. rewrite E. unfold py_index. destruct (Z.ltb_spec (Z.min k 8) 0); [lia|]. unfold shade.
    destruct (nth_error COLOURS (Z.to_nat (Z.min k 8))) as [c|] eqn:Ec; [eexists; split; reflexivity|]. exfalso. apply nth_error_None in Ec. cbn [COLOURS length] in Ec. lia.
  Qed.
End Graded.

Local Open Scope R_scope.
Lemma Int_part_char r z : IZR z <= r < IZR z + 1 -> Int_part r = z.
Proof.
  intros [H1 H2]. pose proof (base_Int_part r) as [H3 H4]. assert (IZR (Int_part r) < IZR (z + 1)) by (rewrite plus_IZR; lra). assert (IZR z < IZR (Int_part r + 1)) by (rewrite plus_IZR; lra).
  apply lt_IZR in H, H0. lia.
Qed.
Lemma xscaled l : n_mul (Fin l : XR) (n_ofZ 9) = Fin (l * 9). Proof. reflexivity. Qed.

(** C52, exact arithmetic.  Levels from 0 up: the k-th of nine equal intervals gives colour k, and everything from 8/9 up the darkest *)
Theorem C52_graded l : 0 <= l -> exists k c, get_graded_colours (Fin l : XR) = Ok c /\ shade k (Fin l : XR) = Some c /\
  ((k < 8)%nat /\ INR k / 9 <= l < (INR k + 1) / 9 \/ k = 8%nat /\ 8 / 9 <= l).
Proof.
  intros Hl. pose proof (base_Int_part (l * 9)) as [H1 H2]. set (z := Int_part (l * 9)) in *.
  assert (Hz : (0 <= z)%Z) by (apply le_IZR; assert (IZR (-1) < IZR z) by lra; apply lt_IZR in H; apply IZR_le; lia).
  destruct (graded_index (F:=XR) (Fin l) z) as (c & E1 & E2).
  { change (Some (if rltb (l * 9) 0 then (- Int_part (- (l * 9)))%Z else Int_part (l * 9)) = Some z). rewrite rltb_false by lra. reflexivity. }
  { exact Hz. }
  exists (Z.to_nat (Z.min z 8)), c. split; [exact E1|]. split; [exact E2|]. destruct (Z.le_gt_cases 8 z) as [H|H].
  - right. rewrite Z.min_r by lia. split; [reflexivity|]. apply IZR_le in H. lra.
  - left. rewrite Z.min_l by lia. split; [lia|]. rewrite INR_IZR_INZ, Z2Nat.id by lia. lra.
Qed.
(** the label is black exactly below 1/2 *)
Theorem C52_label l c lab : get_graded_colours (Fin l : XR) = Ok (c, lab) -> lab = if Rlt_dec l (1 / 2) then black else white.
Proof.
  unfold get_graded_colours. cbv zeta. destruct (n_trunc _) as [k|]; [|discriminate]. destruct (py_index COLOURS _); [|discriminate]. intros [= _ <-].
  unfold reqb. destruct (Req_EM_T 2 0) as [e|_]; [lra|]. unfold rltb. destruct (Rlt_dec l (1 / 2)); reflexivity.
Qed.
(** negative levels: index 0 just below 0, then the colours wrap around, then IndexError *)
Theorem C52_negative l : l < 0 ->
  (-1 / 9 < l -> exists c, get_graded_colours (Fin l : XR) = Ok c /\ shade 0 (Fin l : XR) = Some c) /\
  (forall j : nat, (1 <= j <= 9)%nat -> INR j <= - l * 9 < INR j + 1 -> exists c, get_graded_colours (Fin l : XR) = Ok c /\ shade (9 - j) (Fin l : XR) = Some c) /\
  (l <= -10 / 9 -> get_graded_colours (Fin l : XR) = Err GIndexError).
Proof.
  intros Hl. assert (Tr : n_trunc (n_mul (Fin l : XR) (n_ofZ 9)) = Some (- Int_part (- l * 9))%Z).
  { change (Some (if rltb (l * 9) 0 then (- Int_part (- (l * 9)))%Z else Int_part (l * 9)) = Some (- Int_part (- l * 9))%Z). rewrite rltb_true by lra. do 3 f_equal. ring. }
  split; [|split].
  - intros H. destruct (graded_index (F:=XR) (Fin l) 0%Z) as (c & E1 & E2); [|lia|exists c; auto]. rewrite Tr. rewrite (Int_part_char _ 0) by lra. reflexivity.
  - intros j Hj [H1 H2]. unfold get_graded_colours. cbv zeta. rewrite Tr. rewrite (Int_part_char _ (Z.of_nat j)) by (rewrite <- INR_IZR_INZ; lra).
    rewrite Z.min_l by lia. unfold py_index. change (length COLOURS) with 9%nat. destruct (Z.ltb_spec (- Z.of_nat j) 0); [|lia]. destruct (Z.ltb_spec (- Z.of_nat j) (- Z.of_nat 9)); [lia|].
    replace (Z.to_nat (- Z.of_nat j + Z.of_nat 9)) with (9 - j)%nat by lia. unfold shade. destruct (nth_error COLOURS (9 - j)) as [c|] eqn:Ec; [eexists; split; reflexivity|]. apply nth_error_None in Ec. cbn [COLOURS length] in Ec. lia.
  - intros H. unfold get_graded_colours. cbv zeta. rewrite Tr. pose proof (base_Int_part (- l * 9)) as [H1 H2]. set (z := Int_part (- l * 9)) in *.
    assert (Hz : (10 <= z)%Z) by (assert (IZR 9 < IZR z) by lra; apply lt_IZR in H0; lia). rewrite Z.min_l by lia. unfold py_index. change (length COLOURS) with 9%nat.
    destruct (Z.ltb_spec (- z) 0); [|lia]. destruct (Z.ltb_spec (- z) (- Z.of_nat 9)); [reflexivity|lia].
Qed.
Theorem C52_not_a_number : get_graded_colours (NaN : XR) = Err GIntOfNaN /\ get_graded_colours (PInf : XR) = Err GIntOfInf /\ get_graded_colours (NInf : XR) = Err GIntOfInf.
Proof.
  assert (P9 : forall b, xsign 9 b = if b then PInf else NInf) by (intros b; unfold xsign, reqb, rltb; destruct (Req_EM_T 9 0); [lra|]; destruct (Rlt_dec 0 9), (Rlt_dec 9 0), b; lra || reflexivity).
  split; [reflexivity|]. split; unfold get_graded_colours; cbv zeta.
  - change (n_mul (PInf : XR) (n_ofZ 9)) with (xsign 9 true). rewrite P9. reflexivity.
  - change (n_mul (NInf : XR) (n_ofZ 9)) with (xsign 9 false). rewrite P9. reflexivity.
Qed.

(** C52 in IEEE double arithmetic: for every level from 0 (up to 2^1000) there is a colour, and a higher level never gets a lighter one *)
Section GradedFloat.
  Variable L : libm.
  Notation F := (B64 L).
  Lemma trunc_scaled (x : b64) a : isf x a -> 0 <= a <= bpow radix2 1000 -> n_trunc (n_mul (x : F) (n_ofZ 9)) = Some (Zfloor (Float.rnd (a * 9))).
  Proof.
    intros Hx Ha. assert (M : isf (Bmult mode_NE x (ofZ64 9)) (Float.rnd (a * 9))).
    { apply (mul64 x (ofZ64 9) a 9 (bpow radix2 1004)); auto.
      - apply (ofZ64_isf 9). lia.
      - lra.
      - apply fmt_bpow. lia.
      - change 1004%Z with (1000 + 4)%Z. rewrite bpow_plus. change (bpow radix2 4) with 16. pose proof (bpow_gt_0 radix2 1000). apply Rmult_le_compat; lra.
      - apply bpow_lt. lia. }
    change (trunc64 (Bmult mode_NE x (ofZ64 9)) = Some (Zfloor (Float.rnd (a * 9)))). unfold trunc64. destruct M as [-> E]. f_equal. apply eq_IZR. rewrite (Btrunc_correct 53 1024 _), E, round_FIX_IZR.
    f_equal. apply Ztrunc_floor. apply (rnd_ge_fmt 0); [apply fmt_0|lra].
  Qed.
  Theorem C52_graded_float (x y : b64) a b : isf x a -> isf y b -> 0 <= a <= b -> b <= bpow radix2 1000 ->
    exists k k' c c', get_graded_colours (x : F) = Ok c /\ shade k (x : F) = Some c /\ get_graded_colours (y : F) = Ok c' /\ shade k' (y : F) = Some c' /\
      (k <= k' <= 8)%nat /\ (b < 8 / 9 - / 1000 -> (k' < 8)%nat) /\ (8 / 9 + / 1000 <= a -> k = 8%nat).
  Proof.
    intros Hx Hy [Ha Hab] Hb. pose proof (trunc_scaled x a Hx ltac:(lra)) as Tx. pose proof (trunc_scaled y b Hy ltac:(lra)) as Ty.
    assert (P : forall u, 0 <= u -> (0 <= Zfloor (Float.rnd (u * 9)))%Z) by (intros u Hu; apply Zfloor_lub; apply (rnd_ge_fmt 0); [apply fmt_0|lra]).
    destruct (graded_index (F:=F) x _ Tx (P a Ha)) as (c & E1 & E2). destruct (graded_index (F:=F) y _ Ty (P b ltac:(lra))) as (c' & E3 & E4).
    exists (Z.to_nat (Z.min (Zfloor (Float.rnd (a * 9))) 8)), (Z.to_nat (Z.min (Zfloor (Float.rnd (b * 9))) 8)), c, c'.
    assert (Mono : (Zfloor (Float.rnd (a * 9)) <= Zfloor (Float.rnd (b * 9)))%Z) by (apply Zfloor_le, rnd_le; lra).
    pose proof (P a Ha). pose proof (P b ltac:(lra)). repeat split; auto; try lia.
    - intros Hlt. assert (Zfloor (Float.rnd (b * 9)) < 8)%Z; [|lia]. apply lt_IZR. eapply Rle_lt_trans; [apply Zfloor_lb|].
      assert (G : generic_format radix2 fexp64 (7 + 1023 / 1024)).
      { replace (7 + 1023 / 1024) with (IZR 8191 * bpow radix2 (-10)) by (change (bpow radix2 (-10)) with (/ 1024); lra). apply fmt_int; lia. }
      eapply Rle_lt_trans; [apply (rnd_le_fmt _ _ G); lra|lra].
    - intros Hge. assert (8 <= Zfloor (Float.rnd (a * 9)))%Z; [|lia]. apply Zfloor_lub. apply rnd_ge_fmt; [|lra].
      change (IZR 8) with (bpow radix2 3). apply fmt_bpow. lia.
  Qed.
End GradedFloat.

(** ** Gradient colouring of a result never fails when every node has a finite score >= 0 and no source label is a tuple *)
Section Gradient.
  Context {S V W : Type} {ES : Eqb S} {EV : Eqb V} {EW : Eqb W}.
  Variable src_tuple : S -> option (option (V * W)).
  Definition scored (ts : list (S * V * W)) (r : result S V W XR) (trust : S -> R) (belief : V * W -> R) : Prop :=
    (forall s, In s (sources ts) -> dget (r_trust r) s = Some (Fin (trust s))) /\
    (forall c, In c (claims ts) -> exists m, dget (r_belief r) (fst c) = Some m /\ dget m (snd c) = Some (Fin (belief c))).
  (** node colours under the gradient scheme: the shade of the node's own score; variables keep the default *)
  Theorem C52_node_colours ts r trust belief : scored ts r trust belief -> (forall s, In s (sources ts) -> 0 <= trust s) -> (forall c, In c (claims ts) -> 0 <= belief c) ->
    (forall s, In s (sources ts) -> src_tuple s = None) ->
    forall n, graph_node ts n -> exists cols, get_node_colour src_tuple (GradientScheme r) n = Ok cols /\
      match n with
      | NSource s => get_graded_colours (Fin (trust s) : XR) = Ok (fst cols)
      | NClaim x w => get_graded_colours (Fin (belief (x, w)) : XR) = Ok (fst cols)
      | NVariable x => cols = default_node_colour n
      end.
  Proof.
    intros [Ht Hb] T0 B0 NT [s|x w|x] Hn; cbn [graph_node] in Hn; cbn [get_node_colour].
    - rewrite (NT s Hn), (Ht s Hn). cbn [of_opt bind]. destruct (C52_graded (trust s) (T0 s Hn)) as (k & c & E & _). rewrite E. destruct c as [c1 c2]. cbn [bind]. eexists. split; [reflexivity|]. reflexivity.
    - destruct (Hb (x, w) Hn) as (m & E1 & E2). cbn [fst snd] in E1, E2. unfold belief_level. rewrite E1. cbn [of_opt bind]. rewrite E2. cbn [of_opt bind].
      destruct (C52_graded (belief (x, w)) (B0 _ Hn)) as (k & c & E & _). rewrite E. destruct c as [c1 c2]. cbn [bind]. eexists. split; [reflexivity|]. reflexivity.
    - eexists. split; reflexivity.
  Qed.
End Gradient.

(** * C53 *)
Section JsonForm.
  Context {F : Num}.
  Notation pyval := (pyval F).
  (** an object with distinct attribute names, none of them "type", becomes the dict with its class name under "type" and
      every attribute under its name, in order; attributes that are entities are converted in the same way *)
  Theorem C53_entity_to_dict cls (attrs : list (pystr * pyval)) : NoDup (map fst attrs) -> ~ In (lit_str "type") (map fst attrs) ->
    entity_to_dict (YEntity cls attrs) = JObj ((lit_str "type", JStr (lower cls)) :: map (fun nv => (fst nv, entity_to_dict (snd nv))) attrs).
  Proof.
    intros ND Hn. cbn [entity_to_dict]. f_equal. rewrite fold_dset_app; [reflexivity|]. cbn [dkeys map fst app]. rewrite map_map. cbn [fst]. constructor; assumption.
  Qed.
  Lemma label_json (l : label F) : entity_to_dict (py_label l) = JObj [(lit_str "type", JStr (lit_str "label")); (lit_str "x", JNum (l_x l)); (lit_str "y", JNum (l_y l)); (lit_str "colour", JArr (l_colour l));
      (lit_str "text", JStr (l_text l)); (lit_str "size", JNum (l_size l)); (lit_str "overflow_background", JArr (l_overflow l))].
  Proof. reflexivity. Qed.
  (** the JSON object determines the entity *)
  Theorem C53_recoverable (e e' : entity F) : entity_to_dict (py_entity e) = entity_to_dict (py_entity e') -> e = e'.
  Proof.
    destruct e as [x y c w h|x y c r l|x y c ex ey w b], e' as [x' y' c' w' h'|x' y' c' r' l'|x' y' c' ex' ey' w' b']; cbn [py_entity].
    - intros E. cbn in E. injection E as -> -> -> -> ->. reflexivity.
    - intros E. cbn in E. discriminate.
    - intros E. cbn in E. discriminate.
    - intros E. cbn in E. discriminate.
    - intros E. assert (El : match l with Some l => entity_to_dict (py_label l) | None => JNull end = match l' with Some l => entity_to_dict (py_label l) | None => JNull end).
      { destruct l, l'; cbn in E |- *; congruence. }
      assert (E0 : x = x' /\ y = y' /\ c = c' /\ r = r') by (cbn in E; injection E as -> -> -> -> _; auto). destruct E0 as (-> & -> & -> & ->). f_equal.
      destruct l as [[]|], l' as [[]|]; rewrite ?label_json in El; cbn in El; try discriminate; [|reflexivity]. injection El as -> -> -> -> -> ->. reflexivity.
    - intros E. cbn in E. discriminate.
    - intros E. cbn in E. discriminate.
    - intros E. cbn in E. discriminate.
    - intros E. cbn in E. injection E as -> -> -> -> -> -> ->. reflexivity.
  Qed.
  (** and has all its attributes *)
  Definition json_get (j : json F) (name : string) : option (json F) := match j with JObj o => dget o (lit_str name) | _ => None end.
  Theorem C53_attributes (e : entity F) : let j := entity_to_dict (py_entity e) in
    match e with
    | Rectangle x y c w h => json_get j "type" = Some (JStr (lit_str "rectangle")) /\ json_get j "x" = Some (JNum x) /\ json_get j "y" = Some (JNum y) /\ json_get j "colour" = Some (JArr c) /\
        json_get j "width" = Some (JNum w) /\ json_get j "height" = Some (JNum h)
    | Circle x y c r l => json_get j "type" = Some (JStr (lit_str "circle")) /\ json_get j "x" = Some (JNum x) /\ json_get j "y" = Some (JNum y) /\ json_get j "colour" = Some (JArr c) /\
        json_get j "radius" = Some (JNum r) /\
        match l with
        | None => json_get j "label" = Some JNull
        | Some l => exists jl, json_get j "label" = Some jl /\ json_get jl "type" = Some (JStr (lit_str "label")) /\ json_get jl "x" = Some (JNum (l_x l)) /\ json_get jl "y" = Some (JNum (l_y l)) /\
            json_get jl "colour" = Some (JArr (l_colour l)) /\ json_get jl "text" = Some (JStr (l_text l)) /\ json_get jl "size" = Some (JNum (l_size l)) /\ json_get jl "overflow_background" = Some (JArr (l_overflow l))
        end
    | Line x y c ex ey w b => json_get j "type" = Some (JStr (lit_str "line")) /\ json_get j "x" = Some (JNum x) /\ json_get j "y" = Some (JNum y) /\ json_get j "colour" = Some (JArr c) /\
        json_get j "end_x" = Some (JNum ex) /\ json_get j "end_y" = Some (JNum ey) /\ json_get j "width" = Some (JNum w) /\ json_get j "dashed" = Some (JBool b)
    end.
  Proof.
    destruct e as [x y c w h|x y c r [l|]|x y c ex ey w b]; cbv zeta; repeat split; try reflexivity.
    eexists. split; [reflexivity|]. repeat split; reflexivity.
  Qed.
End JsonForm.

(** * C54 *)
Section Animations.
  Context {S V W LS LV : Type} {ES : Eqb S} {EV : Eqb V} {EW : Eqb W} {EL : Eqb LV} {F : Num}.
  Variable src_tuple : S -> option (option (V * W)).
  Variable T : trig F.
  Variable sz : sizes.
  Variable nm : naming S V W LS LV.
  (** the drawing of one result, by a renderer that has not been used before *)
  Definition frame (d : dataset S V W F) (results : result S V W F) (progress : option F) : res gerr (drawing F) :=
    snd (render src_tuple T sz nm (RState None (GradientScheme results)) d progress).
  Lemma render_frame st d results progress : snd (render src_tuple T sz nm (RState st (GradientScheme results)) d progress) = frame d results progress.
  Proof. reflexivity. Qed.
  (** progress shown in frame i of n *)
  Definition progress_at (show : bool) (n i : nat) : option F := if show then Some (n_div (n_ofZ (Z.of_nat i)) (n_ofZ (Z.of_nat n - 1))) else None.

  (** C54: one frame per partial result, in order, each with that result's colours and its progress; or a ZeroDivisionError if
      progress is to be shown and there is only one; or the error of the first frame that cannot be drawn *)
  Theorem C54_frames clock fuel st o d show : let '(_, out) := get_frames src_tuple T sz nm clock fuel st o d show in
    match fst (run_iter clock fuel o d) with
    | Err e => out = Err (GAlgorithm e)
    | Ok l =>
        if (show && Nat.eqb (List.length l) 1)%bool then out = Err GZeroDivision
        else match out with
             | Ok frames => List.length frames = List.length l /\ forall i r, nth_error l i = Some r -> exists f, nth_error frames i = Some f /\ frame d r (progress_at show (List.length l) i) = Ok f
             | Err e => exists i r, nth_error l i = Some r /\ frame d r (progress_at show (List.length l) i) = Err e
             end
    end.
  Proof.
    unfold get_frames. destruct (run_iter clock fuel o d) as [[l|e] o']; cbn [fst]; [|reflexivity].
    assert (G : forall m st i0, (show && Z.eqb (Z.of_nat (List.length l) - 1) 0)%bool = false ->
      match snd (frames_loop src_tuple T sz nm st d show (Z.of_nat (List.length l) - 1) (enum_from i0 m)) with
      | Ok frames => List.length frames = List.length m /\ forall i r, nth_error m i = Some r -> exists f, nth_error frames i = Some f /\ frame d r (progress_at show (List.length l) (i0 + i)) = Ok f
      | Err e => exists i r, nth_error m i = Some r /\ frame d r (progress_at show (List.length l) (i0 + i)) = Err e
      end).
    { induction m as [|r m IH]; intros st0 i0 NZ; cbn [enum_from frames_loop]; [split; [reflexivity|intros [|i] ?; discriminate]|]. rewrite NZ. cbn [rs_height].
      pose proof (render_frame (rs_height st0) d r (progress_at show (List.length l) i0)) as Ef. unfold progress_at in Ef at 1.
      destruct (render src_tuple T sz nm (RState (rs_height st0) (GradientScheme r)) d (if show then Some (n_div (n_ofZ (Z.of_nat i0)) (n_ofZ (Z.of_nat (List.length l) - 1))) else None)) as [st1 q]. cbn [snd] in Ef.
      destruct q as [f|e].
      - specialize (IH st1 (Datatypes.S i0) NZ). destruct (frames_loop src_tuple T sz nm st1 d show (Z.of_nat (List.length l) - 1) (enum_from (Datatypes.S i0) m)) as [st2 [fs|e]]; cbn [snd bind] in IH |- *.
        + destruct IH as [IH1 IH2]. split; [cbn; now rewrite IH1|]. intros [|i] r' Hr; cbn in Hr.
          * injection Hr as <-. exists f. split; [reflexivity|]. rewrite Nat.add_0_r. auto.
          * destruct (IH2 i r' Hr) as (f' & E1 & E2). exists f'. split; [exact E1|]. rewrite <- Nat.add_succ_comm. exact E2.
        + destruct IH as (i & r' & E1 & E2). exists (Datatypes.S i), r'. split; [exact E1|]. rewrite <- Nat.add_succ_comm. exact E2.
      - cbn [snd]. exists 0%nat, r. split; [reflexivity|]. rewrite Nat.add_0_r. auto. }
    assert (Z1 : Z.eqb (Z.of_nat (List.length l) - 1) 0 = Nat.eqb (List.length l) 1) by (destruct (Z.eqb_spec (Z.of_nat (List.length l) - 1) 0), (Nat.eqb_spec (List.length l) 1); lia || reflexivity).
    rewrite Z1 in G. destruct (show && Nat.eqb (List.length l) 1)%bool eqn:NZ.
    - apply andb_true_iff in NZ. destruct NZ as [-> Hl]. apply Nat.eqb_eq in Hl. destruct l as [|r [|r' l]]; try discriminate. cbn. reflexivity.
    - specialize (G l st 0%nat eq_refl). unfold enumerate. destruct (frames_loop src_tuple T sz nm st d show (Z.of_nat (List.length l) - 1) (enum_from 0 l)) as [st' out]. exact G.
  Qed.
End Animations.
(** progress goes from 0 to 1 *)
Theorem C54_progress n i : (1 < n)%nat -> (i < n)%nat -> exists p, progress_at (F:=XR) true n i = Some (Fin p) /\ 0 <= p <= 1 /\ (i = 0%nat -> p = 0) /\ (i = (n - 1)%nat -> p = 1) /\
  forall j, (i < j < n)%nat -> exists q, progress_at (F:=XR) true n j = Some (Fin q) /\ p < q.
Proof.
  intros Hn Hi. assert (E : forall i, progress_at (F:=XR) true n i = Some (Fin (INR i / (INR n - 1)))).
  { intros k. unfold progress_at. change (n_div (n_ofZ (Z.of_nat k) : XR) (n_ofZ (Z.of_nat n - 1))) with (xdiv (Fin (IZR (Z.of_nat k))) (Fin (IZR (Z.of_nat n - 1)))).
    rewrite minus_IZR, <- !INR_IZR_INZ. assert (1 < INR n) by (apply (lt_INR 1); exact Hn). rewrite xdiv_fin by lra. reflexivity. }
  assert (H1 : 1 < INR n) by (apply (lt_INR 1); exact Hn). assert (Pi : 0 <= INR i) by apply pos_INR. assert (Hi' : INR i + 1 <= INR n) by (rewrite <- S_INR; apply le_INR; lia).
  exists (INR i / (INR n - 1)). split; [apply E|]. split; [|split; [|split]].
  - split; [apply Rmult_le_pos; [assumption|apply Rlt_le, Rinv_0_lt_compat; lra]|]. apply (Rmult_le_reg_r (INR n - 1)); [lra|]. unfold Rdiv. rewrite Rmult_assoc, Rinv_l by lra. lra.
  - intros ->. cbn. unfold Rdiv. ring.
  - intros ->. rewrite minus_INR by lia. cbn [INR]. field. lra.
  - intros j Hj. exists (INR j / (INR n - 1)). split; [apply E|]. unfold Rdiv. apply Rmult_lt_compat_r; [apply Rinv_0_lt_compat; lra|]. apply lt_INR. lia.
Qed.

(** C54: with the partial results of C29.  Whenever the algorithm ends, after k rounds, and the animation is drawn, there are k + 1
    frames, and frame j is the drawing of what the algorithm returns after exactly j rounds *)
Section AnimatedRun.
  Context {S V W LS LV : Type} {ES : Eqb S} {EV : Eqb V} {EW : Eqb W} {EL : Eqb LV} {F : Num} {FOK : NumOK F}.
  Variable src_tuple : S -> option (option (V * W)).
  Variable T : trig F.
  Variable sz : sizes.
  Variable nm : naming S V W LS LV.
  Lemma frame_same d r r' p : same_but_time r r' -> frame src_tuple T sz nm d r p = frame src_tuple T sz nm d r' p.
  Proof. destruct r as [t b u i], r' as [t' b' u' i']. unfold same_but_time. cbn [r_trust r_belief r_iterations]. intros (-> & -> & ->). reflexivity. Qed.
  Theorem C54_rounds b impf ts d : build b impf ts = Ok d -> forall clock clock' fuel a p it lg lg' st show r frames, plain a ->
    fst (run clock fuel (AObj a p it lg) d) = Ok r -> snd (get_frames src_tuple T sz nm clock' fuel st (AObj a p it lg') d show) = Ok frames ->
    exists k, r_iterations r = Some k /\ List.length frames = Datatypes.S k /\
      (exists f, nth_error frames k = Some f /\ frame src_tuple T sz nm d r (progress_at show (Datatypes.S k) k) = Ok f) /\
      forall j, (j <= k)%nat -> exists f rj, nth_error frames j = Some f /\ fst (run clock (Datatypes.S j) (AObj a p (IFixed (Z.of_nat j) 0) None) d) = Ok rj /\
        frame src_tuple T sz nm d rj (progress_at show (Datatypes.S k) j) = Ok f.
  Proof.
    intros Hb clock clock' fuel a p it lg lg' st show r frames Ha Hr Hf. pose proof (C29_partial_results b impf ts d Hb clock clock' fuel a p it lg lg' Ha) as C. rewrite Hr in C.
    pose proof (C54_frames src_tuple T sz nm clock' fuel st (AObj a p it lg') d show) as Q. destruct (get_frames src_tuple T sz nm clock' fuel st (AObj a p it lg') d show) as [st' out]. cbn [snd] in Hf. subst out.
    destruct (fst (run_iter clock' fuel (AObj a p it lg') d)) as [l|e]; [|contradiction]. destruct C as (k & Hk & Ll & (z & Hz & Sz) & Cj). exists k. split; [exact Hk|].
    destruct (show && Nat.eqb (List.length l) 1)%bool; [discriminate|]. destruct Q as [Lf Q]. rewrite Ll in *. split; [exact Lf|]. split.
    - destruct (Q k z Hz) as (f & E1 & E2). exists f. split; [exact E1|]. rewrite <- E2. symmetry. apply frame_same. exact Sz.
    - intros j Hj. destruct (Cj j Hj) as (zj & Ez & _ & Cz). destruct (Cz clock (Datatypes.S j) (Nat.lt_succ_diag_r j)) as (rj & Erj & Sj). destruct (Q j zj Ez) as (f & E1 & E2).
      exists f, rj. split; [exact E1|]. split; [exact Erj|]. rewrite <- E2. symmetry. apply frame_same. exact Sj.
  Qed.
  (** CRH reports no initial scores: its frame j shows the scores after j + 1 rounds, and there is no frame if there are no rounds *)
  Theorem C54_rounds_crh b impf ts d : build b impf ts = Ok d -> forall clock clock' fuel eps p it lg lg' st show r frames,
    fst (run clock fuel (AObj (CRH eps) p it lg) d) = Ok r -> snd (get_frames src_tuple T sz nm clock' fuel st (AObj (CRH eps) p it lg') d show) = Ok frames ->
    r_iterations r = Some (List.length frames) /\
      (forall k, List.length frames = Datatypes.S k -> exists f, nth_error frames k = Some f /\ frame src_tuple T sz nm d r (progress_at show (Datatypes.S k) k) = Ok f) /\
      forall j, (j < List.length frames)%nat -> exists f rj, nth_error frames j = Some f /\ fst (run clock (Datatypes.S (Datatypes.S j)) (AObj (CRH eps) p (IFixed (Z.of_nat (Datatypes.S j)) 0) None) d) = Ok rj /\
        frame src_tuple T sz nm d rj (progress_at show (List.length frames) j) = Ok f.
  Proof.
    intros Hb clock clock' fuel eps p it lg lg' st show r frames Hr Hf. pose proof (C29_crh b impf ts d Hb clock clock' fuel eps p it lg lg') as C. rewrite Hr in C.
    pose proof (C54_frames src_tuple T sz nm clock' fuel st (AObj (CRH eps) p it lg') d show) as Q. destruct (get_frames src_tuple T sz nm clock' fuel st (AObj (CRH eps) p it lg') d show) as [st' out]. cbn [snd] in Hf. subst out.
    destruct (fst (run_iter clock' fuel (AObj (CRH eps) p it lg') d)) as [l|e]; [|contradiction]. destruct C as (k & Hk & Ll & Cj & Cz).
    destruct (show && Nat.eqb (List.length l) 1)%bool; [discriminate|]. destruct Q as [Lf Q]. rewrite Lf, Ll in *. split; [exact Hk|]. split.
    - intros k' E. subst k. destruct (Cz ltac:(lia)) as (z & Hz & Sz). rewrite E in *. replace (Datatypes.S k' - 1)%nat with k' in Hz by lia. destruct (Q k' z Hz) as (f & E1 & E2). exists f. split; [exact E1|]. rewrite <- E2. symmetry. apply frame_same. exact Sz.
    - intros j Hj. destruct (nth_error l j) as [zj|] eqn:Ez; [|apply nth_error_None in Ez; lia]. destruct (Cj j zj Ez) as [_ Cz']. destruct (Cz' clock (Datatypes.S (Datatypes.S j)) (Nat.lt_succ_diag_r _)) as (rj & Erj & Sj). destruct (Q j zj Ez) as (f & E1 & E2).
      exists f, rj. split; [exact E1|]. split; [exact Erj|]. rewrite <- E2. symmetry. apply frame_same. exact Sj.
  Qed.
End AnimatedRun.

Module ColourExamples.
  (** a level of 0.3 is in the third ninth; -0.5 wraps around to colour 5; 1 is the darkest *)
  Example level_03 : exists c, get_graded_colours (Fin (3 / 10) : XR) = Ok c /\ shade 2 (Fin (3 / 10) : XR) = Some c.
  Proof.
    destruct (C52_graded (3 / 10)) as (k & c & E1 & E2 & H); [lra|]. exists c. split; [exact E1|]. destruct H as [[Hk H]|[-> H]]; [|lra].
    assert (k = 2%nat) as <-; [|exact E2]. destruct k as [|[|[|k]]]; cbn in H; try lra; [reflexivity|]. exfalso. pose proof (pos_INR k). destruct k; cbn in H, H0; lra.
  Qed.
  Example level_1 : exists c, get_graded_colours (Fin 1 : XR) = Ok c /\ shade 8 (Fin 1 : XR) = Some c.
  Proof. destruct (C52_graded 1) as (k & c & E1 & E2 & H); [lra|]. exists c. split; [exact E1|]. destruct H as [[Hk H]|[-> H]]; [|exact E2]. apply (le_INR (Datatypes.S k) 8) in Hk. rewrite S_INR in Hk. cbn [INR] in Hk. lra. Qed.
  Example level_neg : exists c, get_graded_colours (Fin (- (1 / 2)) : XR) = Ok c /\ shade 5 (Fin (- (1 / 2)) : XR) = Some c.
  Proof. destruct (C52_negative (- (1 / 2))) as (_ & H & _); [lra|]. apply (H 4%nat); [lia|cbn; lra]. Qed.
  (** a source label that is a tuple equal to a claim is coloured as that claim; another two-element tuple is a KeyError *)
  Example tuple_source : get_node_colour (F:=XR) (fun s : nat => if Nat.eqb s 1 then Some (Some (0%nat, 5%nat)) else None)
    (GradientScheme (Result [(1%nat, Fin 1)] [(0%nat, [(5%nat, Fin 0)])] (Fin 0) None)) (NSource 1%nat)
    = get_node_colour (F:=XR) (fun s : nat => None) (GradientScheme (Result [(1%nat, Fin 0)] [(0%nat, [(5%nat, Fin 0)])] (Fin 0) None)) (NSource 1%nat).
  Proof. reflexivity. Qed.
  (** scores as C52_node_colours asks *)
  Example scores_ok : scored [(1, 0, 5)]%nat (Result [(1%nat, Fin 1)] [(0%nat, [(5%nat, Fin (1/2))])] (Fin 0) None) (fun _ => 1) (fun _ => 1/2).
  Proof.
    split.
    - intros s Hs. cbn in Hs. destruct Hs as [<-|[]]. reflexivity.
    - intros c Hc. cbn in Hc. destruct Hc as [<-|[]]. eexists. split; reflexivity.
  Qed.
  Example animated : progress_at (F:=XR) true 3 1 = Some (n_div (Fin 1) (Fin 2)). Proof. reflexivity. Qed.
End ColourExamples.
