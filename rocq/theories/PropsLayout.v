(** C50: the layout of drawings, in exact arithmetic; and the geometry of the edges' arrow heads (C51). *)
From Coq Require Import NArith String Reals Lra Sorted Psatz.
From Verif Require Import Base Num Sparse Spec Dataset DatasetProofs DatasetRep Iterators Algorithms Results PropsResult PyStr Client PropsOutput Graph GraphRep PropsGraph PropsAlg.

(** ** Orders *)
Lemma str_ltb_total : strict_total str_ltb.
Proof.
  split; [|split].
  - induction x as [|c x IH]; cbn; [reflexivity|]. now rewrite N.eqb_refl.
  - induction x as [|c x IH]; intros [|d' y] [|e z]; cbn; try congruence. destruct (N.eqb_spec c d') as [->|N1].
    + destruct (N.eqb_spec d' e); [apply IH|auto].
    + destruct (N.eqb_spec d' e) as [->|N2].
      * intros H _. destruct (N.eqb_spec c e); [congruence|exact H].
      * rewrite !N.ltb_lt. intros H1 H2. destruct (N.eqb_spec c e) as [->|]; [exfalso; lia|]. apply N.ltb_lt. lia.
  - induction x as [|c x IH]; intros [|d' y]; cbn; auto. destruct (N.eqb_spec c d') as [->|N1].
    + rewrite N.eqb_refl. destruct (IH y) as [H|[->|H]]; auto.
    + destruct (N.eqb_spec d' c); [congruence|]. rewrite !N.ltb_lt. lia.
Qed.
Lemma pair_lt_total {A B} `{Eqb A} `{Eqb B} (lta : A -> A -> bool) (ltb : B -> B -> bool) : strict_total lta -> strict_total ltb -> strict_total (pair_lt lta ltb).
Proof.
  intros (I1 & T1 & O1) (I2 & T2 & O2). unfold pair_lt. split; [|split].
  - intros [a b]. cbn. now rewrite !beq_refl.
  - intros [a b] [a' b'] [a'' b'']. cbn [fst snd]. destruct (beq_spec a a') as [->|N1].
    + destruct (beq_spec b b') as [->|M1]; [discriminate|]. intros H1. destruct (beq_spec a' a'') as [->|N2]; [|auto].
      destruct (beq_spec b' b'') as [->|M2]; [discriminate|]. intros H2. pose proof (T2 _ _ _ H1 H2) as H3. destruct (beq_spec b b'') as [->|]; [|exact H3]. rewrite I2 in H3. discriminate.
    + intros H1. destruct (beq_spec a' a'') as [->|N2].
      * destruct (beq_spec b' b'') as [->|M2]; [discriminate|]. intros _. rewrite beq_neq by assumption. exact H1.
      * intros H2. pose proof (T1 _ _ _ H1 H2) as H3. destruct (beq_spec a a'') as [->|]; [|exact H3]. rewrite I1 in H3. discriminate.
  - intros [a b] [a' b']. cbn [fst snd]. destruct (beq_spec a a') as [->|N1].
    + rewrite beq_refl. destruct (beq_spec b b') as [->|M1]; [auto|]. rewrite (beq_neq b' b) by congruence. destruct (O2 b b') as [|[|]]; auto; congruence.
    + rewrite (beq_neq a' a) by congruence. destruct (O1 a a') as [|[|]]; auto; congruence.
Qed.
Lemma sorted_nth {A} (R : A -> A -> Prop) l i j a b : StronglySorted R l -> i < j -> nth_error l i = Some a -> nth_error l j = Some b -> R a b.
Proof.
  intros H. revert i j. induction H as [|x l Hs IH Hx]; intros i j Hij Ha Hb; [destruct i; discriminate|].
  destruct i as [|i], j as [|j]; cbn in *; [lia| |lia|]; [|apply (IH i j); auto; lia]. injection Ha as <-. rewrite Forall_forall in Hx. apply Hx. now apply nth_error_In in Hb.
Qed.

Local Open Scope R_scope.
(** ** Means *)
Lemma rsum_add_const {A} (f : A -> R) c l : rsum (fun x => f x + c) l = rsum f l + INR (length l) * c.
Proof. induction l as [|x l IH]; [cbn; lra|]. change (rsum (fun x => f x + c) (x :: l)) with (f x + c + rsum (fun x => f x + c) l). change (rsum f (x :: l)) with (f x + rsum f l). rewrite IH. change (length (x :: l)) with (S (length l)). rewrite S_INR. lra. Qed.
Lemma mean_bounds lo hi l : l <> [] -> (forall x, In x l -> lo <= x <= hi) -> lo <= mean l <= hi.
Proof.
  intros NE H. unfold mean. assert (Hn : 0 < INR (length l)) by (apply lt_0_INR; destruct l; [congruence|cbn; lia]).
  assert (B : lo * INR (length l) <= rsum (fun x => x) l <= hi * INR (length l)).
  { clear NE Hn. induction l as [|x l IH]; [cbn; lra|]. change (rsum (fun x => x) (x :: l)) with (x + rsum (fun x => x) l). change (length (x :: l)) with (S (length l)). rewrite S_INR.
    pose proof (H x (or_introl eq_refl)). specialize (IH (fun y Hy => H y (or_intror Hy))). lra. }
  split; [apply (Rmult_le_reg_r (INR (length l)))|apply (Rmult_le_reg_r (INR (length l)))]; auto; unfold Rdiv; rewrite Rmult_assoc, Rinv_l by lra; lra.
Qed.
Lemma mean_gap D l m : l <> [] -> m <> [] -> (forall x y, In x l -> In y m -> x + D <= y) -> mean l + D <= mean m.
Proof.
  intros Hl Hm H. assert (exists t, (forall x, In x l -> x <= t) /\ (forall y, In y m -> t + D <= y)) as (t & H1 & H2).
  { clear Hm. revert H. induction l as [|a l IH]; intros H; [congruence|]. destruct l as [|b l].
    - exists a. split; [intros x [->|[]]; lra|]. intros y Hy. apply H; auto. now left.
    - destruct IH as (t & H1 & H2); [discriminate|intros x y Hx Hy; apply H; auto; now right|]. destruct (Rle_dec a t).
      + exists t. split; [|exact H2]. intros x [->|Hx]; auto.
      + exists a. split; [intros x [->|Hx]; [lra|specialize (H1 x Hx); lra]|]. intros y Hy. apply H; auto. now left. }
  assert (L : mean l <= t).
  { destruct (mean_bounds (fold_right Rmin t l) t l Hl) as [_ G]; [|exact G]. intros x Hx. split; [|now apply H1]. clear -Hx. induction l as [|a l IH]; [destruct Hx|]. cbn [fold_right]. destruct Hx as [->|Hx]; [apply Rmin_l|]. eapply Rle_trans; [apply Rmin_r|auto]. }
  assert (M : t + D <= mean m).
  { destruct (mean_bounds (t + D) (fold_right Rmax (t + D) m) m Hm) as [G _]; [|exact G]. intros x Hx. split; [now apply H2|]. clear -Hx. induction m as [|a m IH]; [destruct Hx|]. cbn [fold_right]. destruct Hx as [->|Hx]; [apply Rmax_l|]. eapply Rle_trans; [|apply Rmax_r]; auto. }
  lra.
Qed.

(** ** Layout *)
Section Layout.
  Context {S V W LS LV : Type} {ES : Eqb S} {EV : Eqb V} {EW : Eqb W} {EL : Eqb LV}.
  Variable src_tuple : S -> option (option (V * W)).
  Variable T : trig XR.
  Variable sz : sizes.
  Variable nm : naming S V W LS LV.
  Variables (b : bool) (impf : option (V -> W -> W -> option XR)) (ts : list (S * V * W)) (d : dataset S V W XR).
  Hypothesis Hb : build b impf ts = Ok d.
  Hypothesis Hr : (0 <= g_radius sz)%Z.
  Hypothesis Hsp : (0 <= g_spacing sz)%Z.
  Hypothesis Hw : (2 * g_radius sz <= g_width sz)%Z.

  Let r := IZR (g_radius sz).
  Let gap := 2 * r + IZR (g_spacing sz).
  Let height := get_height sz d.
  Definition yR (i n : nat) : R := if Nat.ltb 1 n then r + IZR (height - 2 * g_radius sz) * INR i / (INR n - 1) else IZR height / 2.
  Lemma y_coord_fin i n : y_coord (F:=XR) sz height i n = Fin (yR i n).
  Proof.
    unfold y_coord, yR. destruct (Nat.ltb_spec 1 n) as [H|H].
    - change (n_add (n_ofZ (g_radius sz) : XR) (n_div (n_ofZ ((height - 2 * g_radius sz) * Z.of_nat i)) (n_ofZ (Z.of_nat n - 1)))) with (xadd (Fin r) (xdiv (Fin (IZR ((height - 2 * g_radius sz) * Z.of_nat i))) (Fin (IZR (Z.of_nat n - 1))))).
      assert (E : IZR (Z.of_nat n - 1) = INR n - 1) by (rewrite minus_IZR, <- INR_IZR_INZ; reflexivity).
      assert (Hn : 1 < INR n) by (apply (lt_INR 1 n); exact H). rewrite E, xdiv_fin by lra. cbn. do 2 f_equal. rewrite mult_IZR, <- INR_IZR_INZ. reflexivity.
    - change (n_div (n_ofZ height : XR) (n_ofZ 2)) with (xdiv (Fin (IZR height)) (Fin 2)). apply xdiv_fin. lra.
  Qed.
  Definition most : nat := Nat.max (Nat.max (length (sources ts)) (length (claims ts))) (length (variables ts)).
  Lemma height_eq : IZR height = INR most * (2 * r) + (INR most - 1) * IZR (g_spacing sz).
  Proof.
    unfold height, get_height. pose proof (build_rep _ _ _ _ Hb) as R. rewrite (rep_ns _ _ _ R), (rep_nc _ _ _ R), (rep_nv _ _ _ R). fold most. cbv zeta.
    rewrite plus_IZR, !mult_IZR, minus_IZR, <- INR_IZR_INZ. unfold r. lra.
  Qed.
  Lemma yR_props n : (0 < n <= most)%nat -> (forall i, (i < n)%nat -> r <= yR i n <= IZR height - r) /\ (forall i j, (i < j < n)%nat -> yR i n + gap <= yR j n).
  Proof.
    intros Hn. pose proof height_eq as HH. assert (r0 : 0 <= r) by (apply (IZR_le 0); exact Hr). assert (s0 : 0 <= IZR (g_spacing sz)) by (apply (IZR_le 0); exact Hsp).
    assert (Hm : INR n <= INR most) by (apply le_INR; lia). assert (H1n : 1 <= INR n) by (apply (le_INR 1); lia).
    assert (Ea : IZR (height - 2 * g_radius sz) = (INR most - 1) * gap) by (rewrite minus_IZR, HH, mult_IZR; unfold gap, r; ring).
    assert (g0 : 0 <= gap) by (unfold gap; lra). unfold yR. rewrite Ea. destruct (Nat.ltb_spec 1 n) as [H|H].
    - assert (Hn1 : 1 < INR n) by (apply (lt_INR 1 n); exact H). set (q := (INR most - 1) * gap / (INR n - 1)).
      assert (Hq : gap <= q).
      { unfold q. apply (Rmult_le_reg_r (INR n - 1)); [lra|]. unfold Rdiv. rewrite Rmult_assoc, Rinv_l by lra. rewrite Rmult_1_r, Rmult_comm. apply Rmult_le_compat_r; lra. }
      assert (Ey : forall i, r + (INR most - 1) * gap * INR i / (INR n - 1) = r + q * INR i) by (intros i; unfold q; field; lra).
      split.
      + intros i Hi. rewrite Ey. assert (Hi0 : 0 <= INR i) by apply pos_INR. assert (Hi1 : INR i + 1 <= INR n) by (rewrite <- S_INR; apply le_INR; lia). 
        assert (P1 : 0 <= q * INR i) by (apply Rmult_le_pos; lra). assert (P2 : q * INR i <= q * (INR n - 1)) by (apply Rmult_le_compat_l; lra).
        assert (E2 : q * (INR n - 1) = (INR most - 1) * gap) by (unfold q; field; lra). rewrite E2 in P2.
        assert (E3 : IZR height - r = r + (INR most - 1) * gap) by (rewrite HH; unfold gap; ring). lra.
      + intros i j Hij. rewrite !Ey. assert (INR i + 1 <= INR j) by (rewrite <- S_INR; apply le_INR; lia). assert (q * (INR i + 1) <= q * INR j) by (apply Rmult_le_compat_l; lra). lra.
    - assert (n = 1%nat) by lia. subst n. split; [|intros; lia]. intros i _. assert (G : 2 * r <= IZR height). 2: lra. rewrite HH.
      assert (1 <= INR most) by exact Hm. assert (0 <= (INR most - 1) * (2 * r)) by (apply Rmult_le_pos; lra). assert (0 <= (INR most - 1) * IZR (g_spacing sz)) by (apply Rmult_le_pos; lra). lra.
  Qed.

  (** ** C50 *)
  Record rpositions := RPositions { p_source : S -> R * R; p_claim : V * W -> R * R; p_variable : V -> R * R }.
  Definition real_positions (P : rpositions) : positions S V W XR :=
    let f := fun p : R * R => (Fin (fst p), Fin (snd p)) : XR * XR in Positions (fun s => f (p_source P s)) (fun c => f (p_claim P c)) (fun x => f (p_variable P x)).
  (** a disc of the node radius around p lies inside the image *)
  Definition inside (p : R * R) : Prop := r <= fst p <= IZR (g_width sz) - r /\ r <= snd p <= IZR height - r.
  Definition apart (p q : R * R) : Prop := 2 * r + IZR (g_spacing sz) <= Rabs (snd p - snd q).

  Lemma pos_order {A} `{Eqb A} (l o : list A) x : Permutation o l -> In x l -> (pos x o < length l)%nat.
  Proof. intros P Hx. rewrite <- (Permutation_length P). apply pos_lt. apply (Permutation_in _ (Permutation_sym P)). exact Hx. Qed.
  Lemma apart_of i j n p q : (0 < n <= most)%nat -> (i < n)%nat -> (j < n)%nat -> i <> j -> snd p = yR i n -> snd q = yR j n -> apart p q.
  Proof.
    intros Hn Hi Hj N Ep Eq. destruct (yR_props n Hn) as [_ G]. unfold apart. rewrite Ep, Eq. unfold gap in G. destruct (Nat.lt_total i j) as [H|[H|H]]; [|contradiction|].
    - specialize (G i j ltac:(lia)). rewrite Rabs_minus_sym. eapply Rle_trans; [|apply Rle_abs]. lra.
    - specialize (G j i ltac:(lia)). eapply Rle_trans; [|apply Rle_abs]. lra.
  Qed.

  Theorem C50_layout st progress cols : (forall n, graph_node ts n -> get_node_colour src_tuple (rs_colours st) n = Ok (cols n)) ->
    exists P : rpositions,
      snd (render src_tuple T sz nm st d progress) = Ok (Drawing (g_width sz) height
        (map (fun e => entity_to_dict (py_entity e)) (picture sz (style_of nm (rs_colours st) cols) (arrow_head T sz) ts (real_positions P) height progress))) /\
      (forall s, In s (sources ts) -> inside (p_source P s)) /\
      (forall c, In c (claims ts) -> inside (p_claim P c)) /\
      (forall x, In x (variables ts) -> inside (p_variable P x)) /\
      (forall s s', In s (sources ts) -> In s' (sources ts) -> s <> s' -> apart (p_source P s) (p_source P s')) /\
      (forall c c', In c (claims ts) -> In c' (claims ts) -> c <> c' -> apart (p_claim P c) (p_claim P c')) /\
      (strict_total (nm_lt_var nm) -> (forall x x', In x (variables ts) -> In x' (variables ts) -> nm_var nm x = nm_var nm x' -> x = x') ->
       forall x x', In x (variables ts) -> In x' (variables ts) -> x <> x' -> apart (p_variable P x) (p_variable P x')).
  Proof.
    intros Hc. pose proof (build_rep _ _ _ _ Hb) as R.
    set (ys := fun c => yR (pos c (claim_order nm ts)) (length (claims ts))).
    set (of_var := fun x => filter (fun c : V * W => beq (fst c) x) (claims ts)).
    exists (RPositions (fun s => (r, yR (pos s (src_order nm ts)) (length (sources ts)))) (fun c => (IZR (g_width sz) / 2, ys c)) (fun x => (IZR (g_width sz) - r, mean (map ys (of_var x))))).
    assert (HsO : Permutation (src_order nm ts) (sources ts)) by apply by_key_perm. assert (HcO : Permutation (claim_order nm ts) (claims ts)) by apply by_key_perm.
    assert (Wr : 2 * r <= IZR (g_width sz)) by (apply IZR_le in Hw; rewrite mult_IZR in Hw; exact Hw).
    assert (Ns : (length (sources ts) <= most)%nat) by (unfold most; lia). assert (Nc : (length (claims ts) <= most)%nat) by (unfold most; lia).
    assert (Vne : forall x, In x (variables ts) -> map ys (of_var x) <> []).
    { intros x Hx. destruct (variable_claims ts x Hx) as [w Hxw]. assert (Hin : In (x, w) (of_var x)) by (apply filter_In; split; [exact Hxw|apply beq_refl]). destruct (of_var x); [destruct Hin|discriminate]. }
    assert (Hys : forall c, In c (claims ts) -> r <= ys c <= IZR height - r).
    { intros c Hcl. assert (P0 : (pos c (claim_order nm ts) < length (claims ts))%nat) by now apply pos_order. unfold ys. apply yR_props; lia. }
    split; [|split; [|split; [|split; [|split; [|split]]]]].
    - unfold render, compile. cbn [rs_height rs_colours snd]. fold height.
      assert (Eh : forall h : Z, match h with 0%Z => h | _ => h end = h) by (intros []; reflexivity). rewrite (Eh height). clear Eh.
      rewrite (compile_at_char src_tuple T sz nm (rs_colours st) ts impf d R height progress (fun n => match get_node_colour src_tuple (rs_colours st) n with Ok c => c | Err _ => cols n end)).
      2:{ intros n c E. now rewrite E. }
      assert (FN : first_error src_tuple (rs_colours st) (all_nodes ts) = None) by (apply first_error_None; intros n Hn; apply all_nodes_In in Hn; eauto).
      rewrite FN. cbn [bind]. do 3 f_equal. rewrite picture_eq. unfold picture, node_picture. cbn [st_colours style_of st_claim st_variable st_source st_background st_progress at_source at_claim at_variable real_positions p_source p_claim p_variable fst snd].
      assert (Es : forall s, src_at sz nm ts height s = (Fin r, Fin (yR (pos s (src_order nm ts)) (length (sources ts)))) :> XR * XR) by (intros s; unfold src_at; rewrite y_coord_fin; reflexivity).
      assert (Ecl : forall c, claim_at sz nm ts height c = (Fin (IZR (g_width sz) / 2), Fin (ys c)) :> XR * XR).
      { intros c. unfold claim_at. rewrite y_coord_fin. f_equal. change (n_div (n_ofZ (g_width sz) : XR) (n_ofZ 2)) with (xdiv (Fin (IZR (g_width sz))) (Fin 2)). apply xdiv_fin. lra. }
      assert (Ev : forall x, In x (variables ts) -> var_at sz nm ts height x = (Fin (IZR (g_width sz) - r), Fin (mean (map ys (of_var x)))) :> XR * XR).
      { intros x Hx. unfold var_at. apply f_equal2; [change (Fin (IZR (g_width sz - g_radius sz)) = Fin (IZR (g_width sz) - r)); now rewrite minus_IZR|].
        rewrite <- (np_mean_fin _ (Vne x Hx)). rewrite map_map. apply (f_equal (np_mean (F:=XR))). apply map_ext. intros c. now rewrite Ecl. }
      assert (Ec : forall n, graph_node ts n -> match get_node_colour src_tuple (rs_colours st) n with Ok c => c | Err _ => cols n end = cols n) by (intros n Hn; now rewrite (Hc n Hn)).
      apply f_equal2; [reflexivity|]. apply f_equal2; [apply flat_map_ext; intros p; now rewrite Es, Ecl|]. apply f_equal2; [|apply f_equal2; [|apply f_equal2; [|reflexivity]]].
      + rewrite !flat_map_concat_map. f_equal. apply map_ext_in. intros [x w] H. cbn [fst snd]. rewrite (Ec (NClaim x w)) by exact H. rewrite Ecl, Ev by (now apply (claims_var ts (x, w))). reflexivity.
      + rewrite !flat_map_concat_map. f_equal. apply map_ext_in. intros x H. rewrite (Ec (NVariable x)) by exact H. rewrite Ev by exact H. reflexivity.
      + rewrite !flat_map_concat_map. f_equal. apply map_ext_in. intros s H. rewrite (Ec (NSource s)) by exact H. rewrite Es. reflexivity.
    - intros s Hs. assert (P0 : (pos s (src_order nm ts) < length (sources ts))%nat) by now apply pos_order. split; cbn [p_source fst snd]; [lra|]. apply yR_props; lia.
    - intros c Hcl. split; cbn [p_claim fst snd]; [|now apply Hys]. assert (0 <= r) by (apply (IZR_le 0); exact Hr). lra.
    - intros x Hx. split; cbn [p_variable fst snd]; [assert (0 <= r) by (apply (IZR_le 0); exact Hr); lra|]. apply mean_bounds; [now apply Vne|]. intros y Hy. apply in_map_iff in Hy. destruct Hy as (c & <- & Hy). apply filter_In in Hy. now apply Hys.
    - intros s s' Hs Hs' N. pose proof (pos_order _ _ s HsO Hs). pose proof (pos_order _ _ s' HsO Hs'). apply (apart_of (pos s (src_order nm ts)) (pos s' (src_order nm ts)) (length (sources ts))); try reflexivity; try lia; try assumption.
      intros E. apply N. apply pos_inj in E; auto; apply (Permutation_in _ (Permutation_sym HsO)); assumption.
    - intros c c' Hs Hs' N. pose proof (pos_order _ _ c HcO Hs). pose proof (pos_order _ _ c' HcO Hs'). apply (apart_of (pos c (claim_order nm ts)) (pos c' (claim_order nm ts)) (length (claims ts))); try reflexivity; try lia; try assumption.
      intros E. apply N. apply pos_inj in E; auto; apply (Permutation_in _ (Permutation_sym HcO)); assumption.
    - intros To Inj.
      assert (G : forall x x', In x (variables ts) -> In x' (variables ts) -> nm_lt_var nm (nm_var nm x) (nm_var nm x') = true -> mean (map ys (of_var x)) + gap <= mean (map ys (of_var x'))).
      { intros x x' Hx Hx' Lt. apply mean_gap; auto. intros y y' Hy Hy'. apply in_map_iff in Hy, Hy'. destruct Hy as (c & <- & Hc1), Hy' as (c' & <- & Hc1').
        apply filter_In in Hc1, Hc1'. destruct Hc1 as [Hcl E1], Hc1' as [Hcl' E2]. apply beq_eq in E1, E2.
        pose proof (pos_order _ _ c HcO Hcl) as L1. pose proof (pos_order _ _ c' HcO Hcl') as L2.
        pose proof (nth_error_pos c (claim_order nm ts) (Permutation_in _ (Permutation_sym HcO) Hcl)) as N1. pose proof (nth_error_pos c' (claim_order nm ts) (Permutation_in _ (Permutation_sym HcO) Hcl')) as N2.
        assert (Nx : nm_var nm x <> nm_var nm x') by (intros E; rewrite E in Lt; destruct To as (I0 & _); rewrite I0 in Lt; discriminate).
        assert (Kl : pair_lt (nm_lt_var nm) str_ltb (claim_key nm c) (claim_key nm c') = true).
        { unfold pair_lt, claim_key. cbn [fst snd]. rewrite E1, E2, beq_neq by exact Nx. exact Lt. }
        assert (So : StronglySorted (fun a b0 => pair_lt (nm_lt_var nm) str_ltb (claim_key nm b0) (claim_key nm a) = false) (claim_order nm ts)).
        { apply by_key_sorted. apply strict_total_weak, pair_lt_total; [exact To|exact str_ltb_total]. }
        destruct (Nat.lt_total (pos c (claim_order nm ts)) (pos c' (claim_order nm ts))) as [H|[H|H]].
        - apply yR_props; lia.
        - rewrite H in N1. rewrite N1 in N2. injection N2 as ->. congruence.
        - pose proof (sorted_nth _ _ _ _ _ _ So H N2 N1) as K. cbn beta in K. congruence. }
      intros x x' Hx Hx' N. unfold apart. cbn [p_variable snd]. destruct To as (I0 & Tr & Tri). destruct (Tri (nm_var nm x) (nm_var nm x')) as [H|[H|H]].
      + specialize (G x x' Hx Hx' H). unfold gap in G. rewrite Rabs_minus_sym. eapply Rle_trans; [|apply Rle_abs]. lra.
      + exfalso. apply N. now apply Inj.
      + specialize (G x' x Hx' Hx H). unfold gap in G. eapply Rle_trans; [|apply Rle_abs]. lra.
  Qed.
End Layout.

(** The hypotheses on labels hold for both renderer classes: for GraphRenderer if the variables' labels are totally ordered,
    for MatrixDatasetGraphRenderer if str() of different ints is different. *)
Theorem C50_labels_base {S V W} show_s show_v show_w lt_s (lt_v : V -> V -> bool) : strict_total lt_v ->
  let nm := @base_naming S V W show_s show_v show_w lt_s lt_v in strict_total (nm_lt_var nm) /\ forall x x', nm_var nm x = nm_var nm x' -> x = x'.
Proof. intros H. split; [exact H|]. intros x x' E. exact E. Qed.
Theorem C50_labels_matrix {W} show_nat (show_w : W -> pystr) zero_indexed : (forall i j, show_nat i = show_nat j -> i = j) ->
  let nm := matrix_naming show_nat show_w zero_indexed in strict_total (nm_lt_var nm) /\ forall x x', nm_var nm x = nm_var nm x' -> x = x'.
Proof.
  intros H. split; [exact str_ltb_total|]. intros x x' E. cbn [nm_var matrix_naming] in E. apply app_inv_head in E. unfold format_label in E. apply H in E. destruct zero_indexed; lia.
Qed.

(** ** C51: arrow heads.  The tip is on the border of the target node, in the direction of the other end; both strokes are 10
    long and make an angle of pi/7 with the edge, one on each side of it. *)
Definition fin2 (p : R * R) : XR * XR := (Fin (fst p), Fin (snd p)).
Theorem C51_arrow_head sz ax ay bx by' : (ax, ay) <> (bx, by') ->
  let len := norm2 (bx - ax) (by' - ay) in
  let ux := (bx - ax) / len in let uy := (by' - ay) / len in          (* unit vector along the edge *)
  let tip := (bx - IZR (g_radius sz) * ux, by' - IZR (g_radius sz) * uy) in
  let c := cos (PI / 7) in let s := sin (PI / 7) in
  arrow_head exact_trig sz (fin2 (ax, ay)) (fin2 (bx, by')) =
    (fin2 tip, fin2 (fst tip - 10 * (c * ux + s * uy), snd tip - 10 * (c * uy - s * ux)), fin2 (fst tip - 10 * (c * ux - s * uy), snd tip - 10 * (c * uy + s * ux))).
Proof.
  intros N. assert (N' : (bx - ax, by' - ay) <> (0, 0)) by (intros E; injection E as E1 E2; apply N; f_equal; lra). cbv zeta.
  pose proof (norm2_pos _ _ N') as Hp.
  assert (Rot : forall t x, rotate exact_trig (Fin t) (Fin x) = fin2 (cos t * x, sin t * x)).
  { intros t x. unfold rotate. cbn. unfold fin2. cbn [fst snd]. f_equal; f_equal; ring. }
  assert (Vp : forall p q, vplus (F:=XR) (fin2 p) (fin2 q) = fin2 (fst p + fst q, snd p + snd q)) by (intros; reflexivity).
  assert (E7 : n_div (t_pi exact_trig) (n_ofZ 7 : XR) = Fin (PI / 7)) by (apply xdiv_fin; lra).
  unfold arrow_head. rewrite E7.
  change (t_atan2 exact_trig (n_sub (snd (fin2 (bx, by'))) (snd (fin2 (ax, ay)))) (n_sub (fst (fin2 (bx, by'))) (fst (fin2 (ax, ay))))) with (Fin (atan2R (by' - ay) (bx - ax)) : XR).
  cbv zeta. set (t := atan2R (by' - ay) (bx - ax)).
  change (n_ofZ (- g_radius sz) : XR) with (Fin (IZR (- g_radius sz))). change (n_ofZ (-10) : XR) with (Fin (-10)). rewrite Rot, Vp.
  change (n_add (n_mul (n_ofZ (-1) : XR) (Fin (PI / 7))) (Fin t)) with (Fin (-1 * (PI / 7) + t) : XR). change (n_add (n_mul (n_ofZ 1 : XR) (Fin (PI / 7))) (Fin t)) with (Fin (1 * (PI / 7) + t) : XR).
  rewrite !Rot, !Vp. cbn [fst snd].
  assert (Ct : cos t = (bx - ax) / norm2 (bx - ax) (by' - ay)) by (apply cos_atan2; exact N').
  assert (St : sin t = (by' - ay) / norm2 (bx - ax) (by' - ay)) by (apply sin_atan2; exact N').
  replace (-1 * (PI / 7) + t) with (t - PI / 7) by ring. replace (1 * (PI / 7) + t) with (t + PI / 7) by ring.
  rewrite cos_minus, sin_minus, cos_plus, sin_plus, Ct, St, opp_IZR. unfold fin2. cbn [fst snd].
  repeat (apply f_equal2; [|]); apply f_equal; ring.
Qed.

Module LayoutExamples.
  Definition src_tuple (s : nat) : option (option (nat * nat)) := None.
  Definition nm : naming nat nat nat nat nat := base_naming (fun n => [N.of_nat n]) (fun n => [N.of_nat n]) (fun n => [N.of_nat n]) Nat.ltb Nat.ltb.
  Definition sz := Sizes 800 50 20 3 3 15.
  Definition ts : list (nat * nat * nat) := [(1, 1, 1); (2, 1, 2); (3, 1, 1); (3, 2, 5)]%nat.
  (** a built dataset, with a colour scheme that has colours for all nodes: the theorems apply to it *)
  Example layout : exists d, build false None ts = Ok d /\ exists P,
    snd (render src_tuple exact_trig sz nm (RState None DefaultScheme) d None) = Ok (Drawing 800 340 (map (fun e => entity_to_dict (py_entity e)) (picture sz (style_of nm DefaultScheme default_node_colour) (arrow_head exact_trig sz) ts (real_positions P) 340 None)))
    /\ apart sz (p_variable P 1%nat) (p_variable P 2%nat).
  Proof.
    assert (exists d, build (F:=XR) false None ts = Ok d) as (d & Hd).
    { apply PropsAlg.AlgExamples.strict_builds. unfold ts, sv_pairs; cbn. repeat constructor; cbn; intuition congruence. }
    exists d. split; [exact Hd|]. assert (Hh : get_height sz d = 340%Z) by (pose proof (build_rep _ _ _ _ Hd) as R; unfold get_height; rewrite (rep_ns _ _ _ R), (rep_nc _ _ _ R), (rep_nv _ _ _ R); reflexivity).
    destruct (C50_layout src_tuple exact_trig sz nm false None ts d Hd ltac:(cbn; lia) ltac:(cbn; lia) ltac:(cbn; lia) (RState None DefaultScheme) None default_node_colour) as (P & E & _ & _ & _ & _ & _ & G); [reflexivity|].
    rewrite Hh in E. exists P. split; [exact E|]. apply G; [exact PropsOutput.OutputExamples.nat_order|auto|vm_compute; tauto|vm_compute; tauto|discriminate].
  Qed.
  Example arrow : exists p, arrow_head exact_trig sz (fin2 (0, 0)) (fin2 (100, 0)) = p.
  Proof. eexists. apply C51_arrow_head. intros [= H]; lra. Qed.
End LayoutExamples.
