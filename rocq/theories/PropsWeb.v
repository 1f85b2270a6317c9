(** C48: the /run/ page of the web client. *)
From Coq Require Import NArith String Sorted.
From Verif Require Import Base Num Sparse Spec Dataset DatasetProofs DatasetRep Iterators Algorithms Driver Rounds Results PropsResult PyStr Regex Matrix Supervised Client PropsClient Graph GraphRep PropsRun PropsOutput PropsMatrix PropsGraph PropsColour Front FrontRep PropsCli.

(** ** Which errors a run can end with *)
Section RunErrors.
  Context {S V W : Type} {ES : Eqb S} {EV : Eqb V} {EW : Eqb W} {F : Num} {FOK : NumOK F}.
  Definition sound_iterator (it : iterator F) : Prop := match it with IConv m _ _ _ _ => m <> BadMeasure | _ => True end.
  Lemma loop_fuel (a b : nat -> vec F) brk fuel (it : iterator F) k : fst (fst (it_loop a b brk fuel it k)) = Err OutOfFuel ->
    match it with IFixed n j => fuel <= Z.to_nat n - j | IConv _ _ n j _ => fuel <= Z.to_nat n - j | IOrd _ _ _ => True end.
  Proof.
    revert it k. induction fuel as [|n IH]; intros it k; cbn [it_loop]; [destruct it; auto; lia|]. destruct it as [l j|m t l j cur|t j c]; cbn [finished].
    - destruct (Z.leb_spec l (Z.of_nat j)); [discriminate|]. destruct (brk k); [discriminate|]. cbn [compare]. intros E. apply IH in E. lia.
    - destruct (match cur with Some x => n_ltb x t | None => false end); [discriminate|]. destruct (Z.leb_spec l (Z.of_nat j)); [discriminate|]. destruct (brk k); [discriminate|]. cbn [compare].
      destruct (get_distance m (a k) (b k)) as [x|e] eqn:Ed.
      + intros E. apply IH in E. lia.
      + cbn [fst]. intros [= ->]. unfold get_distance in Ed. destruct m; try discriminate; [destruct (norm_inf _); discriminate|destruct (_ || _)%bool; discriminate].
    - auto.
  Qed.
  Section Built.
    Variables (b : bool) (impf : option (V -> W -> W -> option F)) (ts : list (S * V * W)) (d : dataset S V W F).
    Hypothesis Hb : build b impf ts = Ok d.
    Lemma loop_errors (clock : nat -> F) a x0 fuel it k e : ts <> [] -> shaped d x0 -> sound_iterator it ->
      fst (fst (it_loop (cmp1 a d x0) (cmp2 a d x0) (stops a d x0) fuel it k)) = Err e -> e = OutOfFuel \/ e = ConvergenceError \/ e = KeyErr /\ exists t n c, it = IOrd t n c.
    Proof.
      intros NE Sh0. pose proof (build_rep _ _ _ _ Hb) as R.
      assert (Dist : forall m j, m <> BadMeasure -> stops a d x0 j = false -> exists y, get_distance m (cmp1 a d x0 j) (cmp2 a d x0 j) = Ok y).
      { intros m j Hm Hs. destruct m; cbn; eauto; [|destruct (_ || _)%bool; eauto|congruence].
        assert (L : length (cmp1 a d x0 j) <> 0 /\ length (cmp2 a d x0 j) = length (cmp1 a d x0 j)).
        { unfold stops in Hs. unfold cmp1, cmp2. pose proof (scores_shaped clock ts impf d R NE a x0 j Sh0) as Sj.
          pose proof (round_cmp_shaped ts impf d R NE a _ Sj) as Q. destruct (round a d (scores a d x0 j)); [congruence|contradiction|].
          destruct Q as [-> ->]. split; [|reflexivity]. apply (ns_pos ts impf d R NE). }
        unfold norm_inf. destruct (npmax_ne (map n_abs (vsub (cmp1 a d x0 j) (cmp2 a d x0 j)))) as [y ->]; [|eauto].
        rewrite map_length. unfold vsub. rewrite zipw_length; lia. }
      revert it k. induction fuel as [|n IH]; intros it k So; cbn [it_loop]; [intros [= <-]; auto|]. destruct it as [l j|m t l j cur|t j c]; cbn [finished].
      - destruct (l <=? Z.of_nat j)%Z; [discriminate|]. destruct (stops a d x0 k); [discriminate|]. cbn [compare]. intros Er. destruct (IH (IFixed l (Datatypes.S j)) _ I Er) as [H|[H|(_ & t & n' & c & H)]]; auto. discriminate.
      - destruct (match cur with Some x => n_ltb x t | None => false end); [discriminate|]. destruct (l <=? Z.of_nat j)%Z; [cbn [fst]; intros [= <-]; auto|]. destruct (stops a d x0 k) eqn:Es; [discriminate|]. cbn [compare].
        destruct (Dist m k So Es) as [y ->]. intros Er. destruct (IH (IConv m t l (Datatypes.S j) (Some y)) _ So Er) as [H|[H|(_ & t' & n' & c & H)]]; auto. discriminate.
      - destruct (t <=? Z.of_nat c)%Z; [discriminate|]. destruct (stops a d x0 k); [discriminate|]. cbn [compare]. destruct (get_ranking_vector (cmp1 a d x0 k)), (get_ranking_vector (cmp2 a d x0 k)).
        + intros Er. destruct (IH (IOrd _ _ _) _ I Er) as [H|[H|(-> & _)]]; auto. right. right. eauto 10.
        + cbn [fst]. intros [= <-]. right. right. eauto 10.
        + cbn [fst]. intros [= <-]. right. right. eauto 10.
        + cbn [fst]. intros [= <-]. right. right. eauto 10.
    Qed.
    Lemma run_errors clock fuel a p it lg e : ts <> [] -> p <> BadPrior -> sound_iterator it -> fst (run clock fuel (AObj a p it lg) d) = Err e ->
      e = ConvergenceError \/
      e = OutOfFuel /\ (match it with IFixed n _ => fuel <= Z.to_nat n | IConv _ _ n _ _ => fuel <= Z.to_nat n | IOrd _ _ _ => True end) \/
      e = KeyErr /\ (exists t n c, it = IOrd t n c) \/ e = NoSuchMethod /\ a = UnboundedSums /\ (forall t n c, it <> IOrd t n c).
    Proof.
      intros NE Hp So. pose proof (build_rep _ _ _ _ Hb) as R. rewrite (run_char clock ts impf d R NE). destruct (init a p d) as [x0|] eqn:E0; [|exfalso; destruct a, p; cbn in E0; congruence].
      pose proof (init_shaped ts impf d R a p x0 E0) as Sh0. assert (So' : sound_iterator (reset it)) by (destruct it; exact So).
      pose proof (loop_errors clock a x0 fuel (reset it) 0) as Le. pose proof (loop_fuel (cmp1 a d x0) (cmp2 a d x0) (stops a d x0) fuel (reset it) 0) as Lf.
      pose proof (it_loop_reset (cmp1 a d x0) (cmp2 a d x0) (stops a d x0) fuel (reset it) 0) as Lr.
      destruct (it_loop (cmp1 a d x0) (cmp2 a d x0) (stops a d x0) fuel (reset it) 0) as [[q k] it']. cbn [fst snd] in *. destruct q as [u|e'].
      - destruct (final a it' (scores a d x0 k)) as [x|e'] eqn:Ef; [discriminate|]. intros [= ->]. destruct a; cbn in Ef; try discriminate.
        destruct it' as [l j|m t l j cur|t j c]; cbn in Lr; try (injection Ef as <-; right; right; right; split; [reflexivity|]; split; [reflexivity|]; intros t1 n1 c1 ->; cbn in Lr; discriminate).
        destruct it as [| |t0 j0 c0]; cbn in Lr; try discriminate. repeat (match type of Ef with (match ?q with Some _ => _ | None => _ end = _) => destruct q end); try discriminate; injection Ef as Ef; subst e; right; right; left; eauto 10.
      - intros [= ->]. destruct (Le e NE Sh0 So' eq_refl) as [->|[->|(-> & t & n & c & Et)]].
        + right. left. split; [reflexivity|]. specialize (Lf eq_refl). destruct it; cbn in Lf |- *; lia || auto.
        + now left.
        + right. right. left. split; [reflexivity|]. destruct it; cbn in Et; try discriminate. eauto.
    Qed.
    Lemma run_then_iter clock clock' fuel o r : fst (run clock fuel o d) = Ok r -> exists l, fst (run_iter clock' fuel o d) = Ok l.
    Proof.
      destruct o as [a p it lg]. intros E. destruct (run clock fuel (AObj a p it lg) d) as [r0 o'] eqn:Er. cbn [fst] in E. subst r0.
      destruct (run_cases b impf ts d Hb clock fuel a p it lg r o' Er) as (NE & x0 & k & it' & E0 & El & x & Ef & _). pose proof (build_rep _ _ _ _ Hb) as R.
      rewrite (run_iter_char clock' ts impf d R NE), E0, El, Ef. cbn [fst]. eauto.
    Qed.
  End Built.
End RunErrors.

(** ** Which errors can a request cause *)
Section Requested.
  Context {W : Type} {EW : Eqb W} {F : Num} {FOK : NumOK F}.
  Variable pfloat : pystr -> option F.
  Variable decimal : pychar -> option N.
  Hypothesis DEC : decimal_ok decimal.
  Notation params := (dict pystr (pvalue F)).
  (** parameters that were made from strings *)
  Definition parsed (ps : params) : Prop := exists strs items, Forall2 (fun s it => algorithm_parameter pfloat decimal s = Ok it) strs items /\ ps = dict_of items.
  Lemma dict_of_In {K X} `{Eqb K} (l : list (K * X)) k v : dget (dict_of l) k = Some v -> In (k, v) l.
  Proof.
    assert (G : forall l d, dget (fold_left (fun d kv => dset d (fst kv) (snd kv)) l d) k = Some v -> In (k, v) l \/ dget d k = Some v).
    { clear l. induction l as [|[k' v'] l IH]; intros d; cbn [fold_left fst snd]; [auto|]. intros E. destruct (IH _ E) as [H1|H1]; [left; now right|]. rewrite dget_dset in H1. destruct (beq_spec k k') as [->|]; [injection H1 as ->; left; now left|auto]. }
    intros E. destruct (G l [] E) as [H1|H1]; [exact H1|discriminate].
  Qed.
  Lemma parsed_value ps k v : parsed ps -> dget ps k = Some v ->
    match v with
    | PIterator it => exists s, get_iterator pfloat decimal 200 s = Ok it
    | PPrior p => p <> BadPrior
    | PFloat _ => True
    end.
  Proof.
    intros (strs & items & H & ->) E. apply dict_of_In in E. induction H as [|s it strs items Es _ IH]; [destruct E|]. destruct E as [->|E]; [|exact (IH E)]. apply (C44_accepts_iff pfloat decimal DEC) in Es.
    destruct Es as (a & b & _ & _ & -> & [(Ea & it & Hi & ->)|[(Ea & p & Hp & ->)|(Na & Na' & x & _ & ->)]]); [|intros ->; discriminate|exact I].
    exists (strip b). now apply (C43_accepts_iff pfloat decimal DEC).
  Qed.
  Lemma parsed_prior ps p : parsed ps -> p <> BadPrior -> prior_given ps p <> BadPrior.
  Proof. intros P Hp. unfold prior_given. destruct (dget ps (lit_str "priors")) as [[| |]|] eqn:E; auto. exact (parsed_value ps _ _ P E). Qed.
  Lemma parsed_iterator ps it0 : parsed ps ->
    (iterator_cell ps = None -> iterator_given ps it0 = it0) /\
    (forall it, iterator_cell ps = Some it -> iterator_given ps it0 = it /\ sound_iterator it /\ match it with IFixed n _ => (n <= 200)%Z | IConv _ _ n _ _ => (n <= 200)%Z | IOrd _ _ _ => False end).
  Proof.
    intros P. unfold iterator_cell, iterator_given. destruct (dget ps (lit_str "iterator")) as [[it| |]|] eqn:E; (split; [intros H; try discriminate; auto|]); intros it1 H; try discriminate. injection H as <-. split; [reflexivity|].
    destruct (parsed_value ps _ _ P E) as (s & Hs). apply (C43_accepts_iff pfloat decimal DEC) in Hs. destruct Hs as [ds n tl Hn Hmax _|m name th x Hm _ _ _|m name th x ds n tl Hm _ _ _ Hn Hmax _]; cbn; split; auto; try lia; intros ->; discriminate.
  Qed.
  (** the only ways in which an algorithm made from a request can fail *)
  Lemma requested_errors b impf ts (d : dataset nat nat W F) clock fuel c ps o e : build b impf ts = Ok d -> parsed ps -> requested c ps = Some o -> fst (crun clock fuel o d) = Err e ->
    ts = [] /\ e = EmptyDatasetError \/
    ts <> [] /\ (e = ConvergenceError \/
      e = OutOfFuel /\ ((Z.of_nat fuel <= 1000000)%Z \/ c = CUnboundedSums /\ iterator_cell ps = None) \/
      e = KeyErr /\ c = CUnboundedSums /\ iterator_cell ps = None \/
      e = NoSuchMethod /\ c = CUnboundedSums /\ iterator_cell ps <> None).
  Proof.
    intros Hb P Ho E. destruct ts as [|t0 tr] eqn:Ets.
    - left. split; [reflexivity|]. destruct o as [|[a p it lg]]; cbn [crun] in E.
      + pose proof (C26_empty b impf [] d Hb clock fuel (AObj Sums FIXED (IFixed 0 0) None)) as [Q _]. destruct (Q eq_refl) as (_ & _ & Q3). cbn [fst] in E. rewrite Q3 in E. congruence.
      + destruct (C26_empty b impf [] d Hb clock fuel (AObj a p it lg)) as [Q _]. destruct (Q eq_refl) as (Q1 & _ & _). destruct (run clock fuel (AObj a p it lg) d). cbn [fst] in *. congruence.
    - right. rewrite <- Ets in *. assert (NE : ts <> []) by (rewrite Ets; discriminate). clear Ets t0 tr. split; [exact NE|].
      destruct o as [|[a p it lg]]; cbn [crun] in E.
      + exfalso. cbn [fst] in E. pose proof (build_rep _ _ _ _ Hb) as R. unfold voting_run in E. destruct (Nat.eqb_spec (num_claims d) 0) as [Z|N]; [now apply (nc_pos ts impf d R NE) in Z|].
        destruct (npmax_ne (source_counts d)) as [y Ey]; [rewrite (source_counts_length ts impf d R); exact N|]. rewrite Ey in E.
        assert (H1 : List.length (repeat (n_ofZ 1 : F) (num_sources d)) = num_sources d) by apply repeat_length.
        assert (H2 : List.length (vdivs (source_counts d) y) = num_claims d) by (rewrite vdivs_length; exact (source_counts_length ts impf d R)).
        rewrite (trust_dict_vec ts impf d R _ H1), (belief_dict_vec ts impf d R _ H2) in E. discriminate E.
      + destruct (run clock fuel (AObj a p it lg) d) as [r0 o'] eqn:Er. cbn [fst] in E. subst r0. apply (f_equal fst) in Er. cbn [fst] in Er.
        assert (Q : p <> BadPrior /\ sound_iterator it /\ (iterator_cell ps <> None -> forall t n c, it <> IOrd t n c) /\ (c <> CUnboundedSums -> a <> UnboundedSums /\ forall t n c, it <> IOrd t n c) /\
          (c = CUnboundedSums -> iterator_cell ps = None -> exists t n c, it = IOrd t n c) /\
          match it with IFixed n _ => (n <= 200)%Z | IConv _ _ n _ _ => (n <= 1000000)%Z | IOrd _ _ _ => True end).
        { destruct c; try discriminate Ho; cbn [requested] in Ho; injection Ho as <- <- <- _; (split; [apply (parsed_prior ps _ P); discriminate|]);
            match goal with |- context [iterator_given ps ?i] => destruct (parsed_iterator ps i P) as [I1 I2] end;
            (destruct (iterator_cell ps) as [it0|];
              [destruct (I2 it0 eq_refl) as (-> & So & Hlim); split; [exact So|]; destruct it0; try contradiction; (repeat split; try discriminate; try lia; try congruence)
              |rewrite (I1 eq_refl); split; [cbn; try discriminate; exact I|]; (repeat split; try discriminate; try lia; try congruence; eauto)]). }
        destruct Q as (Q1 & Q2 & Q3 & Q4 & Q5 & Q6). destruct (run_errors b impf ts d Hb clock fuel a p it lg e NE Q1 Q2 Er) as [->|[(-> & Hf)|[(-> & t & n & k & ->)|(-> & Ha & Hi)]]].
        * now left.
        * right. left. split; [reflexivity|]. destruct it as [n j|m t n j cur|t n k]; [left; lia|left; lia|]. right. split.
          -- destruct c; try reflexivity; exfalso; (eapply (proj2 (Q4 ltac:(discriminate)))); reflexivity.
          -- destruct (iterator_cell ps) eqn:Ei; [|reflexivity]. exfalso. eapply Q3; [discriminate|reflexivity].
        * right. right. left. split; [reflexivity|]. split.
          -- destruct c; try reflexivity; exfalso; (eapply (proj2 (Q4 ltac:(discriminate)))); reflexivity.
          -- destruct (iterator_cell ps) eqn:Ei; [|reflexivity]. exfalso. eapply Q3; [discriminate|reflexivity].
        * right. right. right. split; [reflexivity|]. assert (Ec : c = CUnboundedSums) by (destruct c; try reflexivity; exfalso; exact (proj1 (Q4 ltac:(discriminate)) Ha)). split; [exact Ec|].
          intros Hn. destruct (Q5 Ec Hn) as (t & n & k & ->). exact (Hi _ _ _ eq_refl).
  Qed.
End Requested.

Section Web.
  Context {C W : Type} {EW : Eqb W} {F : Num} {FOK : NumOK F}.
  Variable parse : pystr -> option (option C).
  Variable label : C -> W.
  Variable pfloat : pystr -> option F.
  Variable decimal : pychar -> option N.
  Hypothesis DEC : decimal_ok decimal.
  Variable ord : list pystr -> list pystr.
  Hypothesis Ord : forall l, Permutation l (ord l).
  Variable ltw : W -> W -> bool.
  Variable rnd : nat -> nat.
  Hypothesis irrefl : forall x : F, n_ltb x x = false.
  Variable T : trig F.
  Variable show_nat : nat -> pystr.
  Variable show_w : W -> pystr.
  Variable loads : pystr -> option (jval (F:=F)).
  Variable oset : list pystr -> list pystr.
  Hypothesis Oset : forall l, Permutation (oset l) l.
  Notation params := (dict pystr (pvalue F)).
  Notation data := (dataset nat nat W F).
  Notation result := (result nat nat W F).
  Notation one_label := (one_label ord ltw rnd T show_nat show_w loads oset).
  Notation label_loop := (label_loop ord ltw rnd T show_nat show_w loads oset).
  Notation web_run := (web_run parse label pfloat decimal ord ltw rnd T show_nat show_w loads oset).

  (** ** Specification *)
  (** a JSON value that Python can subtract from a number *)
  Definition numeric (j : jval (F:=F)) : Prop := exists x, number j = Some x.
  Definition result_fields : list pystr := [lit_str "trust"; lit_str "belief"; lit_str "time"; lit_str "iterations"].
  (** the four fields of a previous result *)
  Definition has_fields (obj : list (pystr * jval)) (t b u it : jval (F:=F)) : Prop :=
    dget obj (lit_str "trust") = Some t /\ dget obj (lit_str "belief") = Some b /\ dget obj (lit_str "time") = Some u /\ dget obj (lit_str "iterations") = Some it.
  (** a previous result that can be compared with [r]: numbers wherever [r] has a score under the same name *)
  Definition comparable (t b u it : jval (F:=F)) (r : result) : Prop :=
    numeric u /\
    (exists to, t = JvObj to /\ forall s j, In s (dkeys (r_trust r)) -> dget to (show_nat s) = Some j -> numeric j) /\
    (exists bo, b = JvObj bo /\ forall x m j, dget (r_belief r) x = Some m -> dget bo (show_nat x) = Some j ->
       exists mo, j = JvObj mo /\ forall w j', In w (dkeys m) -> dget mo (show_w w) = Some j' -> numeric j') /\
    (it = JvNull \/ r_iterations r = None \/ numeric it).
  (** the differences reported: current minus previous, for every name on both sides *)
  Definition minus (y : F) (j : jval) : option F := option_map (n_sub y) (number j).
  Definition differences (t b u it : jval (F:=F)) (r : result) (df : web_diff (F:=F)) : Prop :=
    Some (wd_time df) = minus (r_time r) u /\
    (exists to, t = JvObj to /\ forall k v, dget (wd_trust df) k = Some v <-> exists s y j, k = show_nat s /\ dget (r_trust r) s = Some y /\ dget to k = Some j /\ minus y j = Some v) /\
    (exists bo, b = JvObj bo /\ forall k k' v, (exists m, dget (wd_belief df) k = Some m /\ dget m k' = Some v) <->
       exists x w y m mo j, k = show_nat x /\ k' = show_w w /\ dget (r_belief r) x = Some m /\ dget m w = Some y /\ dget bo k = Some (JvObj mo) /\ dget mo k' = Some j /\ minus y j = Some v) /\
    (forall k m, dget (wd_belief df) k = Some m -> m <> []) /\
    wd_iterations df = match r_iterations r with Some n => minus (n_ofZ (Z.of_nat n)) it | None => None end.

  Section Request.
    Variables (clocks : nat -> nat -> F) (fuel : nat) (ts : list (nat * nat * W)) (d : data) (ps : params) (previous : option pystr).
    (** the drawing of the dataset coloured by a result (its contents: C48_graph) *)
    Definition drawn (r : result) (g : drawing F) : Prop := frame (fun _ => None) T web_sizes (web_naming show_nat show_w) d r None = Ok g.
    (** a result with a score for which there is no colour *)
    Definition uncoloured (r : result) (e : gerr) : Prop :=
      exists x : F, get_graded_colours x = Err e /\
        ((exists s, In s (sources ts) /\ dget (r_trust r) s = Some x) \/ (exists v w m, In (v, w) (claims ts) /\ dget (r_belief r) v = Some m /\ dget m w = Some x)).
    (** the partial results of the second run, the one for the animation *)
    Definition partial_results (i : nat) (c : cls) (rs : list result) : Prop :=
      exists o, requested c ps = Some (OIterative o) /\ fst (run_iter (clocks (2 * i + 1)) fuel o d) = Ok rs.

    (** [e] is the answer to the [i]-th label, [l] *)
    Definition entry_for (i : nat) (l : pystr) (e : web_entry) : Prop :=
      exists c r, In (l, c) label_table /\ alone (clocks (2 * i)) fuel ps d c (Ok r) /\
        (forall f, match dget (we_fields e) f with Some v => field_value ltw rnd None r f v | None => f = FAccuracy end) /\
        drawn r (we_graph e) /\
        match we_animation e with
        | None => c = CMajorityVoting
        | Some (fps, frames) => fps = n_div (n_ofZ 1) (lit 2 10) /\ exists rs, partial_results i c rs /\ Forall2 drawn rs frames
        end /\
        match previous, we_diff e with
        | None, None => True
        | Some s, Some df => exists obj t b u it, loads s = Some (JvObj obj) /\ has_fields obj t b u it /\ differences t b u it r df
        | _, _ => False
        end.
    (** the [i]-th label, [l], ends the request with this response *)
    Inductive refuses (i : nat) (l : pystr) : response (W:=W) (F:=F) -> Prop :=
    | unknown_label : (forall c, ~ In (l, c) label_table) -> refuses i l (R400 (BadLabel BadAlgorithmLabel))
    | no_data c : In (l, c) label_table -> ts = [] -> refuses i l (R400 BadEmpty)
    | no_convergence c : In (l, c) label_table -> alone (clocks (2 * i)) fuel ps d c (Err ConvergenceError) -> refuses i l R500
    | no_end c : In (l, c) label_table -> alone (clocks (2 * i)) fuel ps d c (Err OutOfFuel) ->
        (Z.of_nat fuel <= 1000000)%Z \/ c = CUnboundedSums /\ iterator_cell ps = None -> refuses i l NoResponse
    | unbounded_sums e : In (l, CUnboundedSums) label_table -> alone (clocks (2 * i)) fuel ps d CUnboundedSums (Err e) ->
        e = NoSuchMethod /\ iterator_cell ps <> None \/ e = KeyErr /\ iterator_cell ps = None -> refuses i l (Escaped (EAlg e))
    | no_colour c r e : In (l, c) label_table -> alone (clocks (2 * i)) fuel ps d c (Ok r) ->
        uncoloured r e \/ (exists rs r', partial_results i c rs /\ In r' rs /\ uncoloured r' e) -> refuses i l (Escaped (EGraph e))
    | previous_not_json c r s : In (l, c) label_table -> alone (clocks (2 * i)) fuel ps d c (Ok r) -> previous = Some s ->
        loads s = None -> refuses i l (R400 (BadPrevious NotJson))
    | previous_missing_field c r s obj name : In (l, c) label_table -> alone (clocks (2 * i)) fuel ps d c (Ok r) -> previous = Some s ->
        loads s = Some (JvObj obj) -> In name result_fields -> dget obj name = None -> refuses i l (R400 (BadPrevious (MissingField name)))
    | previous_not_object c r s j : In (l, c) label_table -> alone (clocks (2 * i)) fuel ps d c (Ok r) -> previous = Some s ->
        loads s = Some j -> (forall obj, j <> JvObj obj) -> refuses i l (Escaped EPrevType)
    | previous_incomparable c r s obj t b u it : In (l, c) label_table -> alone (clocks (2 * i)) fuel ps d c (Ok r) -> previous = Some s ->
        loads s = Some (JvObj obj) -> has_fields obj t b u it -> ~ comparable t b u it r -> refuses i l (Escaped EPrevType).
    Definition response_spec (labels : list pystr) (q : response) : Prop :=
      match q with
      | R200 out messages =>
          (forall i l, nth_error labels i = Some l -> exists e, entry_for i l e) /\ NoDup (dkeys out) /\ (forall l, In l (dkeys out) <-> In l labels) /\
          (forall l e, dget out l = Some e -> exists i, nth_error labels i = Some l /\ (forall j, i < j -> nth_error labels j <> Some l) /\ entry_for i l e) /\
          exists cs, Forall2 (fun l c => In (l, c) label_table) labels cs /\ warnings_for ps cs messages
      | _ => exists i l, nth_error labels i = Some l /\ refuses i l q /\ forall j l', j < i -> nth_error labels j = Some l' -> exists e, entry_for j l' e
      end.
  End Request.

  (** ** Proofs: comparison with previous results *)
  Lemma mapM_cases {Er A B} (f : A -> res Er B) l : match mapM f l with Ok ys => Forall2 (fun x y => f x = Ok y) l ys | Err e => exists x, In x l /\ f x = Err e end.
  Proof.
    induction l as [|x l IH]; cbn [mapM]; [constructor|]. destruct (f x) as [y|e] eqn:Ex; cbn [bind]; [|exists x; split; [now left|exact Ex]].
    destruct (mapM f l) as [ys|e]; cbn [bind]; [constructor; assumption|]. destruct IH as (x' & Hx & E'). exists x'. split; [now right|exact E'].
  Qed.
  Lemma Forall2_In_r {A B} (P : A -> B -> Prop) l l' y : Forall2 P l l' -> In y l' -> exists x, In x l /\ P x y.
  Proof. induction 1 as [|a b l l' H _ IH]; [contradiction|]. intros [<-|Hy]; [exists a; split; [now left|exact H]|]. destruct (IH Hy) as (x & Hx & Px). exists x. split; [now right|exact Px]. Qed.
  Lemma Forall2_In_l {A B} (P : A -> B -> Prop) l l' x : Forall2 P l l' -> In x l -> exists y, In y l' /\ P x y.
  Proof. induction 1 as [|a b l l' H _ IH]; [contradiction|]. intros [<-|Hx]; [exists b; split; [now left|exact H]|]. destruct (IH Hx) as (y & Hy & Py). exists y. split; [now right|exact Py]. Qed.
  (** a dict made by a loop over keys *)
  Lemma loop_dict {Er X} (f : pystr -> res Er (pystr * X)) ks (g : pystr -> option X) : (forall k y, f k = Ok y -> fst y = k /\ g k = Some (snd y)) ->
    match mapM f ks with Ok ys => (forall k, In k ks -> exists v, g k = Some v) /\ forall k, dget (dict_of ys) k = if mem k ks then g k else None | Err e => exists k, In k ks /\ f k = Err e end.
  Proof.
    intros Hf. pose proof (mapM_cases f ks) as Q. destruct (mapM f ks) as [ys|e]; [|exact Q]. split.
    - intros k Hk. destruct (Forall2_In_l _ _ _ _ Q Hk) as (y & _ & E). exists (snd y). now apply Hf in E.
    - intros k. rewrite (dget_dict_of_agree ys g).
      + assert (Ek : map fst ys = ks) by (clear - Q Hf; induction Q as [|x y ks ys E _ IH]; cbn; [reflexivity|]; rewrite IH; destruct (Hf x y E) as [-> _]; reflexivity). now rewrite Ek.
      + intros k' v Hin. destruct (Forall2_In_r _ _ _ _ Q Hin) as (x & _ & E). destruct (Hf x (k', v) E) as [Ex Eg]. cbn in Ex, Eg. now subst x.
  Qed.
  Lemma raw_diff_scores_spec d1 d2 :
    match raw_diff_scores oset d1 d2 with
    | Ok l => (forall k j y, dget d1 k = Some j -> dget d2 k = Some y -> numeric j) /\ (forall k v, dget l k = Some v <-> exists j y, dget d1 k = Some j /\ dget d2 k = Some y /\ minus y j = Some v)
    | Err e => e = EPrevType /\ exists k j y, dget d1 k = Some j /\ dget d2 k = Some y /\ ~ numeric j
    end.
  Proof.
    unfold raw_diff_scores. set (f := fun k => _). set (g := fun k => match dget d1 k, dget d2 k with Some j, Some y => minus y j | _, _ => None end).
    pose proof (loop_dict f (common oset (dkeys d1) (dkeys d2)) g) as Q.
    assert (Hf : forall k y, f k = Ok y -> fst y = k /\ g k = Some (snd y)).
    { intros k y. unfold f, g, minus. destruct (dget d1 k) as [j|], (dget d2 k) as [z|]; try discriminate. destruct (number j) as [x|]; cbn [need bind option_map]; [|discriminate]. intros [= <-]. auto. }
    specialize (Q Hf). destruct (mapM f (common oset (dkeys d1) (dkeys d2))) as [ys|e]; cbn [bind].
    - destruct Q as [Q1 Q2]. assert (Cm : forall k j y, dget d1 k = Some j -> dget d2 k = Some y -> In k (common oset (dkeys d1) (dkeys d2))) by (intros k j y H1 H2; apply (common_In oset Oset); split; eapply dget_dkeys; eassumption).
      split.
      + intros k j y H1 H2. destruct (Q1 k (Cm k j y H1 H2)) as [v Hv]. unfold g in Hv. rewrite H1, H2 in Hv. unfold minus in Hv. unfold numeric. destruct (number j); [eauto|discriminate].
      + intros k v. rewrite Q2. split.
        * destruct (mem k _) eqn:M; [|discriminate]. unfold g. destruct (dget d1 k) as [j|], (dget d2 k) as [y|]; try discriminate. intros H. exists j, y. auto.
        * intros (j & y & H1 & H2 & H3). assert (M : mem k (common oset (dkeys d1) (dkeys d2)) = true) by (apply mem_In; exact (Cm k j y H1 H2)). rewrite M. unfold g. now rewrite H1, H2.
    - destruct Q as (k & Hk & E). apply (common_In oset Oset) in Hk. destruct Hk as [H1 H2]. unfold f in E. destruct (dget d1 k) as [j|] eqn:E1; [|apply dget_None in E1; contradiction]. destruct (dget d2 k) as [y|] eqn:E2; [|apply dget_None in E2; contradiction].
      destruct (number j) as [x|] eqn:En; cbn [need bind] in E; [discriminate|]. injection E as <-. split; [reflexivity|]. exists k, j, y. split; [exact E1|]. split; [exact E2|]. intros [x Hx]. congruence.
  Qed.

  Hypothesis show_nat_inj : forall a b, show_nat a = show_nat b -> a = b.
  Hypothesis show_w_inj : forall a b, show_w a = show_w b -> a = b.
  Lemma renamed_lookup {K X Y} `{Eqb K} (sh : K -> pystr) (h : X -> Y) (m : dict K X) : (forall a b, sh a = sh b -> a = b) -> NoDup (dkeys m) ->
    forall k y, dget (dict_of (map (fun p => (sh (fst p), h (snd p))) m)) k = Some y <-> exists a x, k = sh a /\ dget m a = Some x /\ y = h x.
  Proof.
    intros Inj ND k y. assert (ND' : NoDup (map fst (map (fun p => (sh (fst p), h (snd p))) m))).
    { rewrite map_map. cbn [fst]. clear - Inj ND. unfold dkeys in ND. induction m as [|[a x] m IH]; cbn in *; [constructor|]. inversion ND as [|? ? Nx NDm]; subst. constructor; [|auto]. intros Hin. apply in_map_iff in Hin. destruct Hin as ([b z] & E & Hb). cbn in E. apply Inj in E. subst b. apply Nx, in_map_iff. exists (a, z). auto. }
    rewrite dict_of_distinct by exact ND'. split.
    - intros E. apply dget_In, in_map_iff in E. destruct E as ([a x] & E & Hin). cbn in E. injection E as <- <-. exists a, x. split; [reflexivity|]. split; [now apply In_dget|reflexivity].
    - intros (a & x & -> & E & ->). apply In_dget; [exact ND'|]. apply in_map_iff. exists (a, x). split; [reflexivity|now apply dget_In].
  Qed.
  Definition distinct_names (r : result) : Prop := NoDup (dkeys (r_trust r)) /\ NoDup (dkeys (r_belief r)) /\ forall x m, dget (r_belief r) x = Some m -> NoDup (dkeys m).
  Lemma raw_diff_spec t b u it r : distinct_names r ->
    match raw_diff show_nat show_w oset (Raw t b u it) r with Ok df => comparable t b u it r /\ differences t b u it r df | Err e => e = EPrevType /\ ~ comparable t b u it r end.
  Proof.
    intros (ND1 & ND2 & ND3). unfold raw_diff, stringify. cbn [raw_time raw_trust raw_belief raw_iterations].
    set (t2 := dict_of (map (fun p => (show_nat (fst p), snd p)) (r_trust r))). set (b2 := dict_of (map (fun p => (show_nat (fst p), dict_of (map (fun q => (show_w (fst q), snd q)) (snd p)))) (r_belief r))).
    assert (L1 : forall k y, dget t2 k = Some y <-> exists a x, k = show_nat a /\ dget (r_trust r) a = Some x /\ y = x) by exact (renamed_lookup show_nat (fun y : F => y) (r_trust r) show_nat_inj ND1).
    assert (L2 : forall k y, dget b2 k = Some y <-> exists a x, k = show_nat a /\ dget (r_belief r) a = Some x /\ y = dict_of (map (fun q => (show_w (fst q), snd q)) x))
      by exact (renamed_lookup show_nat (fun m : dict W F => dict_of (map (fun q => (show_w (fst q), snd q)) m)) (r_belief r) show_nat_inj ND2).
    assert (L3 : forall x m k y, dget (r_belief r) x = Some m -> (dget (dict_of (map (fun q => (show_w (fst q), snd q)) m)) k = Some y <-> exists w, k = show_w w /\ dget m w = Some y)).
    { intros x m k y E. rewrite (renamed_lookup show_w (fun y : F => y) m show_w_inj (ND3 x m E)). split; [intros (w & z & -> & H & ->); eauto|intros (w & -> & H); eauto]. }
    clearbody t2 b2.
    destruct (number u) as [xu|] eqn:Eu; cbn [need bind]; [|split; [reflexivity|]; intros ((x & Hx) & _); congruence].
    destruct t as [| | | | |to]; cbn [object_of bind]; try (split; [reflexivity|]; intros (_ & (to & Ht & _) & _); discriminate).
    pose proof (raw_diff_scores_spec to t2) as Q. destruct (raw_diff_scores oset to t2) as [dt|e]; cbn [bind].
    2:{ destruct Q as (-> & k & j & y & E1 & E2 & Nj). split; [reflexivity|]. intros (_ & (to' & [= <-] & H) & _). apply L1 in E2. destruct E2 as (s & z & -> & E2 & ->). apply Nj, (H s j); [eapply dget_dkeys; exact E2|exact E1]. }
    destruct Q as [T1 T2]. destruct b as [| | | | |bo]; cbn [object_of bind]; try (split; [reflexivity|]; intros (_ & _ & (bo & Ht & _) & _); discriminate).
    set (f := fun x => _). set (inner := fun (j : jval (F:=F)) (m2 : dict pystr F) => match j with JvObj m1 => match raw_diff_scores oset m1 m2 with Ok diffs => Some diffs | Err _ => None end | _ => None end).
    pose proof (mapM_cases f (common oset (dkeys bo) (dkeys b2))) as Q.
    destruct (mapM f (common oset (dkeys bo) (dkeys b2))) as [db|e]; cbn [bind].
    2:{ destruct Q as (k & Hk & E). apply (common_In oset Oset) in Hk. destruct Hk as [H1 H2]. unfold f in E. destruct (dget bo k) as [j|] eqn:E1; [|apply dget_None in E1; contradiction].
        destruct (dget b2 k) as [m2|] eqn:E2; [|apply dget_None in E2; contradiction]. apply L2 in E2. destruct E2 as (x & m & -> & E2 & ->).
        destruct j as [| | | | |m1]; cbn [object_of bind] in E; try (injection E as <-; split; [reflexivity|]; intros (_ & _ & (bo' & [= <-] & H) & _); destruct (H x m _ E2 E1) as (mo & Hmo & _); discriminate).
        pose proof (raw_diff_scores_spec m1 (dict_of (map (fun q => (show_w (fst q), snd q)) m))) as Q. destruct (raw_diff_scores oset m1 _); cbn [bind] in E; [discriminate|]. injection E as ->. destruct Q as (-> & k & j & y & E3 & E4 & Nj).
        split; [reflexivity|]. intros (_ & _ & (bo' & [= <-] & H) & _). destruct (H x m _ E2 E1) as (mo & [= <-] & H'). apply (L3 x m _ _ E2) in E4. destruct E4 as (w & -> & E4). apply Nj, (H' w j); [eapply dget_dkeys; exact E4|exact E3]. }
    assert (Cb : exists bo', JvObj bo = JvObj (F:=F) bo' /\ forall x m j, dget (r_belief r) x = Some m -> dget bo' (show_nat x) = Some j -> exists mo, j = JvObj mo /\ forall w j', In w (dkeys m) -> dget mo (show_w w) = Some j' -> numeric j').
    { exists bo. split; [reflexivity|]. intros x m j E1 E2. assert (E3 : dget b2 (show_nat x) = Some (dict_of (map (fun q => (show_w (fst q), snd q)) m))) by (apply L2; eauto).
      destruct (Forall2_In_l _ _ _ (show_nat x) Q) as (y & _ & Ey); [apply (common_In oset Oset); split; eapply dget_dkeys; eassumption|]. unfold f in Ey. rewrite E2, E3 in Ey.
      destruct j as [| | | | |m1]; cbn [object_of bind] in Ey; try discriminate. exists m1. split; [reflexivity|]. pose proof (raw_diff_scores_spec m1 (dict_of (map (fun q => (show_w (fst q), snd q)) m))) as Q'.
      destruct (raw_diff_scores oset m1 _) as [l|]; cbn [bind] in Ey; [|discriminate]. destruct Q' as [Q1 _]. intros w j' Hw Ej. destruct (dget m w) as [y0|] eqn:Ew; [|apply dget_None in Ew; contradiction]. apply (Q1 (show_w w) j' y0 Ej). apply (L3 x m _ _ E1). eauto. }
    assert (Hit : match match it with JvNull => Ok None | _ => match r_iterations r with None => Ok None | Some k => x <- need (number it) ;; Ok (Some (n_sub (n_ofZ (Z.of_nat k)) x)) end end with
                  | Ok o => (it = JvNull \/ r_iterations r = None \/ numeric it) /\ o = match r_iterations r with Some n => minus (n_ofZ (Z.of_nat n)) it | None => None end
                  | Err e => e = EPrevType /\ ~ (it = JvNull \/ r_iterations r = None \/ numeric it) end).
    { unfold minus, numeric. destruct (r_iterations r) as [n|]; [|destruct it; cbn; auto]. destruct it; cbn; eauto 10; (split; [reflexivity|]); intros [H|[H|[x H]]]; discriminate. }
    replace (match it with JvNull => Ok None | JvBool _ | JvNum _ | JvStr _ | JvArr _ | JvObj _ => match r_iterations r with Some k => _ | None => Ok None end end)
      with (match it with JvNull => Ok None | _ => match r_iterations r with None => Ok None | Some k => x <- need (number it) ;; Ok (Some (n_sub (n_ofZ (Z.of_nat k)) x)) end end : res escape (option F)) by (destruct it, (r_iterations r); reflexivity).
    destruct (match it with JvNull => Ok None | _ => match r_iterations r with None => Ok None | Some k => x <- need (number it) ;; Ok (Some (n_sub (n_ofZ (Z.of_nat k)) x)) end end) as [o|e]; cbn [bind].
    2:{ destruct Hit as [-> Nit]. split; [reflexivity|]. intros (_ & _ & _ & H). contradiction. }
    destruct Hit as [Hit ->]. split.
    - split; [exists xu; exact Eu|]. split; [|split; [exact Cb|exact Hit]]. exists to. split; [reflexivity|]. intros s j Hs Ej. destruct (dget (r_trust r) s) as [y|] eqn:Es; [|apply dget_None in Es; contradiction]. apply (T1 (show_nat s) j y Ej), L1. eauto.
    - split; [cbn; unfold minus; now rewrite Eu|]. split; [|split; [|split; [|reflexivity]]]; cbn [wd_trust wd_belief].
      + exists to. split; [reflexivity|]. intros k v. rewrite T2. split.
        * intros (j & y & H1 & H2 & H3). apply L1 in H2. destruct H2 as (s & y' & -> & H2 & ->). eauto 10.
        * intros (s & y & j & -> & H1 & H2 & H3). exists j, y. split; [exact H2|]. split; [|exact H3]. apply L1. eauto.
      + exists bo. split; [reflexivity|]. intros k k' v. set (db' := filter _ db).
        set (g := fun k => match dget bo k, dget b2 k with Some j, Some m2 => inner j m2 | _, _ => None end).
        assert (Hg : forall k m, f k = Ok (k, m) -> g k = Some m).
        { intros k0 m. unfold f, g, inner. destruct (dget bo k0) as [j|], (dget b2 k0) as [m2|]; try discriminate. destruct j as [| | | | |m1]; cbn [object_of bind]; try discriminate. destruct (raw_diff_scores oset m1 m2); cbn [bind]; [|discriminate]. intros [= <-]. reflexivity. }
        assert (Hdb : forall k m, In (k, m) db -> f k = Ok (k, m)).
        { intros k0 m Hin. destruct (Forall2_In_r _ _ _ _ Q Hin) as (x & _ & Ex). assert (x = k0); [|congruence]. unfold f in Ex. destruct (dget bo x) as [j|], (dget b2 x) as [m2|]; try discriminate. destruct j as [| | | | |m1]; cbn [object_of bind] in Ex; try discriminate.
          destruct (raw_diff_scores oset m1 m2); cbn [bind] in Ex; [|discriminate]. congruence. }
        assert (Look : forall k, dget (dict_of db') k = if mem k (map fst db') then g k else None).
        { intros k0. apply dget_dict_of_agree. intros k1 m Hin. apply filter_In in Hin. apply Hg, Hdb, Hin. }
        split.
        * intros (m & E1 & E2). rewrite Look in E1. destruct (mem k (map fst db')) eqn:M; [|discriminate]. unfold g, inner in E1. destruct (dget bo k) as [j|] eqn:Ebo; [|discriminate]. destruct (dget b2 k) as [m2|] eqn:Eb2; [|discriminate].
          destruct j as [| | | | |m1]; try discriminate. pose proof (raw_diff_scores_spec m1 m2) as Q'. destruct (raw_diff_scores oset m1 m2) as [l|]; [|discriminate]. injection E1 as ->. destruct Q' as [_ Q']. apply Q' in E2. destruct E2 as (j & y & E3 & E4 & E5).
          apply L2 in Eb2. destruct Eb2 as (x & mx & -> & E6 & ->). apply (L3 x mx _ _ E6) in E4. destruct E4 as (w & -> & E4). exists x, w, y, mx, m1, j. auto 10.
        * intros (x & w & y & mx & mo & j & -> & -> & E1 & E2 & E3 & E4 & E5). assert (E6 : dget b2 (show_nat x) = Some (dict_of (map (fun q => (show_w (fst q), snd q)) mx))) by (apply L2; eauto).
          destruct (Forall2_In_l _ _ _ (show_nat x) Q) as ([k0 l] & Hin & Ey); [apply (common_In oset Oset); split; eapply dget_dkeys; eassumption|]. pose proof (Hdb k0 l Hin) as Ek. assert (k0 = show_nat x).
          { unfold f in Ey. rewrite E3, E6 in Ey. cbn [object_of bind] in Ey. destruct (raw_diff_scores oset mo _); cbn [bind] in Ey; [congruence|discriminate]. } subst k0.
          pose proof (Hg _ _ Ek) as Eg. unfold g, inner in Eg. rewrite E3, E6 in Eg. pose proof (raw_diff_scores_spec mo (dict_of (map (fun q => (show_w (fst q), snd q)) mx))) as Q'. destruct (raw_diff_scores oset mo _) as [l0|] eqn:El; [|discriminate]. injection Eg as ->.
          assert (El' : dget l (show_w w) = Some v) by (apply Q'; exists j, y; split; [exact E4|]; split; [apply (L3 x mx _ _ E1); eauto|exact E5]).
          exists l. split; [|exact El']. rewrite Look. assert (M : mem (show_nat x) (map fst db') = true).
          { apply mem_In, in_map_iff. exists (show_nat x, l). split; [reflexivity|]. apply filter_In. split; [exact Hin|]. cbn [snd]. destruct l; [discriminate|reflexivity]. }
          rewrite M. apply Hg. exact Ek.
      + intros k m Hm Hnil. apply dict_of_In, filter_In in Hm. destruct Hm as [_ Hm]. cbn [snd] in Hm. rewrite Hnil in Hm. discriminate.
  Qed.
  Lemma full_distinct ts (r : result) : full_scores ts r -> distinct_names r.
  Proof.
    intros (t & b & Et & Eb). split; [|split].
    - rewrite Et. unfold tdict, dkeys. rewrite map_map. cbn [fst]. rewrite map_id. apply sources_NoDup.
    - rewrite Eb. unfold bdict, beliefs_of, dkeys. rewrite map_map. cbn [fst]. rewrite map_id. apply distinct_NoDup.
    - intros x m. rewrite Eb. unfold bdict, beliefs_of. intros E. apply dget_In, in_map_iff in E. destruct E as (y & [= -> <-] & _). unfold scores_of, dkeys. rewrite map_map. cbn [fst].
      pose proof (claims_NoDup ts) as ND. induction (claims ts) as [|[v w] cs IH]; [constructor|]. inversion ND as [|? ? Nc NDc]; subst. cbn [filter]. destruct (beq_spec (fst (v, w)) x) as [Ex|]; [|auto]. cbn [fst] in Ex. subst v. cbn [map snd]. constructor; [|auto].
      intros Hin. apply in_map_iff in Hin. destruct Hin as ([v w'] & E & Hin). cbn in E. subst w'. apply filter_In in Hin. destruct Hin as [Hin Hv]. cbn [fst] in Hv. apply beq_eq in Hv. subst v. contradiction.
  Qed.

  (** ** Proofs: drawings *)
  Lemma full_trust ts (r : result) s : full_scores ts r -> In s (sources ts) -> exists x, dget (r_trust r) s = Some x.
  Proof.
    intros (t & b & Et & _) Hs. rewrite Et. unfold tdict. destruct (dget (map _ (sources ts)) s) as [x|] eqn:E; [eauto|]. apply dget_None in E. exfalso. apply E. unfold dkeys. rewrite map_map. cbn [fst]. rewrite map_id. exact Hs.
  Qed.
  Lemma full_belief ts (r : result) v w : full_scores ts r -> In (v, w) (claims ts) -> exists m x, dget (r_belief r) v = Some m /\ dget m w = Some x.
  Proof.
    intros (t & b & _ & Eb) Hc. rewrite Eb. unfold bdict, beliefs_of.
    assert (Hv : In v (distinct (map fst (claims ts)))) by (apply distinct_In, in_map_iff; exists (v, w); auto).
    destruct (dget (map _ (distinct (map fst (claims ts)))) v) as [m|] eqn:E; [|apply dget_None in E; exfalso; apply E; unfold dkeys; rewrite map_map; cbn [fst]; rewrite map_id; exact Hv].
    exists m. apply dget_In, in_map_iff in E. destruct E as (v' & [= -> <-] & _). destruct (dget (scores_of (claims ts) _ v) w) as [x|] eqn:E; [eauto|]. apply dget_None in E. exfalso. apply E. unfold scores_of, dkeys. rewrite map_map. cbn [fst].
    apply in_map_iff. exists (v, w). split; [reflexivity|]. apply filter_In. split; [exact Hc|]. apply (beq_refl (A:=nat)).
  Qed.
  Lemma frame_uncoloured b impf ts (d : data) r e : build b impf ts = Ok d -> full_scores ts r ->
    frame (fun _ => None) T web_sizes (web_naming show_nat show_w) d r None = Err e -> uncoloured ts r e.
  Proof.
    intros Hb Fu. unfold frame, render. cbn [rs_colours]. pose proof (C51_fails (fun _ => None) T web_sizes (web_naming show_nat show_w) b impf ts d Hb (RState (Some (get_height web_sizes d)) (GradientScheme r)) None) as Q.
    destruct (compile _ _ _ _ _ d None) as [st [es|e']]; cbn [snd bind] in *; [discriminate|]. intros [= ->]. destruct (Q e eq_refl) as (n & Hn & En). unfold uncoloured. cbn [rs_colours] in En. destruct n as [s|v w|v]; cbn [graph_node] in Hn; cbn [get_node_colour] in En.
    - destruct (full_trust ts r s Fu Hn) as [x Ex]. rewrite Ex in En. cbn [of_opt bind] in En. exists x. split; [destruct (get_graded_colours x) as [[c1 c2]|]; cbn [bind] in En; congruence|]. left. eauto.
    - destruct (full_belief ts r v w Fu Hn) as (m & x & Em & Ex). unfold belief_level in En. rewrite Em in En. cbn [of_opt bind] in En. rewrite Ex in En. cbn [of_opt bind] in En. exists x.
      split; [destruct (get_graded_colours x) as [[c1 c2]|]; cbn [bind] in En; congruence|]. right. eauto 10.
    - discriminate.
  Qed.

  (** ** Proofs: one label *)
  Lemma table_lookup l : match algorithm_cls l with Ok c => In (l, c) label_table | Err e => e = BadAlgorithmLabel /\ forall c, ~ In (l, c) label_table end.
  Proof.
    destruct (algorithm_cls l) as [c|e] eqn:E; [exact (proj1 (proj1 (C47_labels l c)) E)|]. split.
    - unfold algorithm_cls in E. destruct (dget alg_labels l); [discriminate|]. congruence.
    - intros c H. pose proof (proj2 (proj1 (C47_labels l c)) H). congruence.
  Qed.
  Lemma table_client l c : In (l, c) label_table -> client_class c.
  Proof. intros H. now exists l. Qed.
  Lemma output_fields (r : result) e : nonempty_beliefs r -> get_output_obj ltw rnd r None None = Ok e -> forall f, match dget e f with Some v => field_value ltw rnd None r f v | None => f = FAccuracy end.
  Proof.
    intros N E f. pose proof (output_shows ltw rnd irrefl (RunArgs (F:=F) [] None [] false None None all_fields) None r e N ltac:(discriminate) E f) as Q. cbn [ra_fields] in Q.
    destruct (dget e f); [apply Q|]. destruct Q as [Q|[Q _]]; [|exact Q]. exfalso. apply Q. destruct f; cbn; tauto.
  Qed.
  Lemma raw_of_spec (obj : list (pystr * jval (F:=F))) : match raw_of obj with Ok (Raw t b u it) => has_fields obj t b u it | Err e => exists name, e = MissingField name /\ In name result_fields /\ dget obj name = None end.
  Proof.
    unfold raw_of, field_of, result_fields, has_fields.
    destruct (dget obj (lit_str "trust")) eqn:E1; cbn [bind]; [|eexists; split; [reflexivity|]; split; [left; reflexivity|exact E1]].
    destruct (dget obj (lit_str "belief")) eqn:E2; cbn [bind]; [|eexists; split; [reflexivity|]; split; [right; left; reflexivity|exact E2]].
    destruct (dget obj (lit_str "time")) eqn:E3; cbn [bind]; [|eexists; split; [reflexivity|]; split; [right; right; left; reflexivity|exact E3]].
    destruct (dget obj (lit_str "iterations")) eqn:E4; cbn [bind]; [|eexists; split; [reflexivity|]; split; [right; right; right; left; reflexivity|exact E4]]. auto.
  Qed.
  Lemma nth_Forall2 {A B} (P : A -> B -> Prop) l l' : List.length l' = List.length l -> (forall i x, nth_error l i = Some x -> exists y, nth_error l' i = Some y /\ P x y) -> Forall2 P l l'.
  Proof.
    revert l'. induction l as [|x l IH]; intros [|y l'] L H; try discriminate; constructor.
    - destruct (H 0 x eq_refl) as (y' & [= <-] & Py). exact Py.
    - apply IH; [now injection L|]. intros i z Hz. exact (H (S i) z Hz).
  Qed.
  Section Loop.
    Variables (clocks : nat -> nat -> F) (fuel : nat) (b : bool) (impf : option (nat -> W -> W -> option F)) (ts : list (nat * nat * W)) (d : data) (ps : params) (previous : option pystr).
    Hypothesis Hb : build b impf ts = Ok d.
    Hypothesis P : parsed pfloat decimal ps.
    Let ND : NoDup (dkeys ps). Proof. destruct P as (strs & items & H & ->). apply dict_of_NoDup. Qed.
    Let Ty : well_typed ps. Proof. destruct P as (strs & items & H & ->). exact (proj1 (C45_parsed_typed pfloat decimal DEC strs items H)). Qed.
    Let Rd : real d. Proof. exists b, impf, ts. exact Hb. Qed.
    Lemma one_label_spec i cell l : same_cell cell (iterator_cell ps) ->
      match one_label clocks fuel d ps previous i cell l with
      | inl q => refuses clocks fuel ts d ps previous i l q /\ match q with R200 _ _ => False | _ => True end
      | inr (msg, e, cell') => same_cell cell' (iterator_cell ps) /\ entry_for clocks fuel d ps previous i l e /\
          exists c, In (l, c) label_table /\ match msg with None => unused c ps [] | Some m => exists names, unused c ps names /\ names <> [] /\ m = warning c names end
      end.
    Proof.
      intros Sc. unfold Front.one_label. cbv zeta. pose proof (table_lookup l) as Tl. destruct (algorithm_cls l) as [c|e]; [|destruct Tl as [-> Tl]; split; [now apply unknown_label|exact I]].
      pose proof (table_client l c Tl) as Cc. destruct (C45_constructs (S:=nat) (V:=nat) (W:=W) ord Ord c ps Cc ND Ty) as (o & Er & Eo). pose proof (ignored_unused ord Ord c ps Cc ND) as [U1 U2].
      destruct (get_algorithm_params ord c ps) as [kept ignored]. cbn [fst snd] in *. rewrite Eo.
      assert (Hm : match match ignored with [] => None | _ => Some (ignored_message c ignored) end with None => unused c ps [] | Some m => exists names, unused c ps names /\ names <> [] /\ m = warning c names end).
      { destruct ignored as [|k0 ig] eqn:Ei; [exact U1|]. rewrite <- Ei in *. exists (sort_with str_ltb ignored). split; [exact U1|]. split; [rewrite <- U2, Ei; discriminate|reflexivity]. }
      set (msg := match ignored with [] => None | _ => _ end) in *. clearbody msg. clear U1 U2 Eo kept ignored.
      pose proof (deref_same c ps o cell Er Sc) as Sd. destruct (crun_same d (clocks (2 * i)) fuel (deref cell o) o Rd Sd) as [Ec So1].
      destruct (crun (clocks (2 * i)) fuel (deref cell o) d) as [r o1]. cbn [fst snd] in Ec, So1.
      assert (Al : alone (clocks (2 * i)) fuel ps d c r) by (exists o; auto).
      destruct r as [r|e].
      2:{ pose proof (requested_errors pfloat decimal DEC b impf ts d (clocks (2 * i)) fuel c ps o e Hb P Er (eq_sym Ec)) as [[Ets ->]|(NE & [->|[(-> & Hf)|[(-> & -> & Hi)|(-> & -> & Hi)]]])].
          - split; [now apply (no_data _ _ _ _ _ _ i l c)|exact I].
          - split; [now apply (no_convergence _ _ _ _ _ _ i l c)|exact I].
          - split; [now apply (no_end _ _ _ _ _ _ i l c)|exact I].
          - split; [apply unbounded_sums; auto|exact I].
          - split; [apply unbounded_sums; auto|exact I]. }
      assert (Fu : full_scores ts r) by (destruct (crun (clocks (2 * i)) fuel o d) as [r0 o0] eqn:Eo; cbn [fst] in Ec; subst r0; exact (crun_full b impf ts d _ _ _ _ _ Hb Eo)).
      destruct (output_ok irrefl ltw rnd r None None (full_nonempty ts r Fu)) as [fields Ef]. rewrite Ef.
      change (snd (render (fun _ => None) T web_sizes (web_naming show_nat show_w) (RState None (GradientScheme r)) d None)) with (frame (fun _ => None) T web_sizes (web_naming show_nat show_w) d r None).
      destruct (frame (fun _ => None) T web_sizes (web_naming show_nat show_w) d r None) as [g|e] eqn:Eg.
      2:{ split; [|exact I]. apply (no_colour _ _ _ _ _ _ i l c r e Tl Al). left. exact (frame_uncoloured b impf ts d r e Hb Fu Eg). }
      (* the animation *)
      set (an := match o1 with OVoting => _ | OIterative _ => _ end).
      assert (An : match an with
                   | (Ok None, o2) => c = CMajorityVoting /\ same_cobj o2 o
                   | (Ok (Some (fps, frames)), o2) => same_cobj o2 o /\ fps = n_div (n_ofZ 1) (lit 2 10) /\ exists rs, partial_results clocks fuel d ps i c rs /\ Forall2 (drawn d) rs frames
                   | (Err e, _) => (forall x, e <> GAlgorithm x) /\ exists rs r', partial_results clocks fuel d ps i c rs /\ In r' rs /\ uncoloured ts r' e
                   end).
      { unfold an. destruct o1 as [|o1].
        - split; [|exact So1]. destruct c; try discriminate; cbn in Er; injection Er as <-; try contradiction. reflexivity.
        - destruct o as [|o0]; [contradiction|]. destruct (frames_same (fun _ => None) T web_sizes (web_naming show_nat show_w) d (clocks (2 * i + 1)) fuel (RState None DefaultScheme) o1 o0 false Rd So1) as [Fe Fs].
          assert (E1 : fst (run (clocks (2 * i)) fuel o0 d) = Ok r) by (cbn [crun] in Ec; destruct (run (clocks (2 * i)) fuel o0 d); cbn [fst] in *; auto).
          destruct (run_then_iter b impf ts d Hb (clocks (2 * i)) (clocks (2 * i + 1)) fuel o0 r E1) as [rs Ers].
          assert (Pr : partial_results clocks fuel d ps i c rs) by (exists o0; auto). pose proof (run_iter_full b impf ts d _ _ _ _ Hb Ers) as Fl.
          pose proof (C54_frames (fun _ => None) T web_sizes (web_naming show_nat show_w) (clocks (2 * i + 1)) fuel (RState None DefaultScheme) o0 d false) as Q. rewrite Ers in Q. cbn [andb] in Q.
          destruct (get_frames (fun _ => None) T web_sizes (web_naming show_nat show_w) (clocks (2 * i + 1)) fuel (RState None DefaultScheme) o0 d false) as [sto fr]. cbn [snd] in Fe.
          destruct (get_frames (fun _ => None) T web_sizes (web_naming show_nat show_w) (clocks (2 * i + 1)) fuel (RState None DefaultScheme) o1 d false) as [[st2 o2] fr']. cbn [fst snd] in Fe, Fs. subst fr'.
          destruct fr as [frames|e]; cbn [write_animation].
          + split; [exact Fs|]. split; [reflexivity|]. exists rs. split; [exact Pr|]. destruct Q as [Ql Q]. exact (nth_Forall2 (drawn d) rs frames Ql Q).
          + destruct Q as (j & r' & Hj & Q). unfold progress_at in Q. assert (Hin : In r' rs) by (eapply nth_error_In; exact Hj). assert (Fr : full_scores ts r') by (rewrite Forall_forall in Fl; auto).
            pose proof (frame_uncoloured b impf ts d r' e Hb Fr Q) as U. split; [|eauto 10]. destruct U as (x & Hx & _). intros ae ->. clear - Hx. unfold get_graded_colours in Hx. cbv zeta in Hx.
            destruct (n_trunc _); [destruct (py_index _ _)|destruct (n_eqb _ _)]; discriminate. }
      clearbody an. destruct an as [[an|e] o2].
      2:{ destruct An as [Ne (rs & r' & Pr & Hin & U)]. assert (G : refuses clocks fuel ts d ps previous i l (Escaped (EGraph e))) by (apply (no_colour _ _ _ _ _ _ i l c r e Tl Al); right; eauto). destruct e; try (split; [exact G|exact I]). exfalso. exact (Ne e eq_refl). }
      assert (So2 : same_cobj o2 o) by (destruct an as [[fps frames]|]; apply An). pose proof (store_same c ps o o2 cell Er Sc So2) as Sc'.
      assert (Mk : forall df, match previous, df with None, None => True | Some s, Some df => exists obj t b u it, loads s = Some (JvObj obj) /\ has_fields obj t b u it /\ differences t b u it r df | _, _ => False end ->
        entry_for clocks fuel d ps previous i l (WebEntry fields g an df)).
      { intros df Hdf. exists c, r. split; [exact Tl|]. split; [exact Al|]. split; [exact (output_fields r fields (full_nonempty ts r Fu) Ef)|]. split; [exact Eg|]. split; [|exact Hdf].
        cbn [we_animation]. destruct an as [[fps frames]|]; apply An. }
      destruct previous as [s|] eqn:Ep; [|split; [exact Sc'|]; split; [exact (Mk None I)|eauto]].
      destruct (loads s) as [j|] eqn:El; [|split; [eapply previous_not_json; eauto|exact I]].
      destruct j as [| | | | |obj]; try (split; [eapply previous_not_object; [exact Tl|exact Al|reflexivity|exact El|discriminate]|exact I]).
      pose proof (raw_of_spec obj) as Q. destruct (raw_of obj) as [[t bl u it]|e]; [|destruct Q as (name & -> & Hn & En); split; [eapply previous_missing_field; eauto|exact I]].
      pose proof (raw_diff_spec t bl u it r (full_distinct ts r Fu)) as Q'. destruct (raw_diff show_nat show_w oset (Raw t bl u it) r) as [df|e].
      - split; [exact Sc'|]. split; [|eauto]. apply Mk. exists obj, t, bl, u, it. split; [reflexivity|]. split; [exact Q|apply Q'].
      - destruct Q' as [-> Nc]. split; [eapply previous_incomparable; eauto|exact I].
    Qed.
    Lemma label_loop_spec labels : forall i cell out messages, same_cell cell (iterator_cell ps) ->
      match label_loop clocks fuel d ps previous i cell labels out messages with
      | R200 out' messages' =>
          (forall j l, nth_error labels j = Some l -> exists e, entry_for clocks fuel d ps previous (i + j) l e) /\
          (NoDup (dkeys out) -> NoDup (dkeys out')) /\ (forall l, In l (dkeys out') <-> In l (dkeys out) \/ In l labels) /\
          (forall l e, dget out' l = Some e -> dget out l = Some e /\ ~ In l labels \/
             exists j, nth_error labels j = Some l /\ (forall k, j < k -> nth_error labels k <> Some l) /\ entry_for clocks fuel d ps previous (i + j) l e) /\
          exists cs ms, Forall2 (fun l c => In (l, c) label_table) labels cs /\ messages' = messages ++ ms /\ warnings_for ps cs ms
      | q => exists j l, nth_error labels j = Some l /\ refuses clocks fuel ts d ps previous (i + j) l q /\ forall k l', k < j -> nth_error labels k = Some l' -> exists e, entry_for clocks fuel d ps previous (i + k) l' e
      end.
    Proof.
      induction labels as [|l labels IH]; intros i cell out messages Sc; cbn [Front.label_loop].
      - split; [intros [|j] l H; discriminate|]. split; [auto|]. split; [intros l; cbn; tauto|]. split; [auto|]. exists [], []. rewrite app_nil_r. repeat constructor.
      - pose proof (one_label_spec i cell l Sc) as Q. destruct (one_label clocks fuel d ps previous i cell l) as [q|[[msg e] cell']].
        + destruct Q as [Q Qq]. destruct q; try contradiction; exists 0, l; rewrite Nat.add_0_r; (split; [reflexivity|]); (split; [exact Q|]); intros k l' Hk; lia.
        + destruct Q as (Sc' & En & c & Tl & Hm). specialize (IH (S i) cell' (dset out l e) (messages ++ match msg with Some m => [m] | None => [] end) Sc').
          assert (Fail : forall q, (exists j l0, nth_error labels j = Some l0 /\ refuses clocks fuel ts d ps previous (S i + j) l0 q /\ forall k l', k < j -> nth_error labels k = Some l' -> exists e, entry_for clocks fuel d ps previous (S i + k) l' e) ->
            exists j l0, nth_error (l :: labels) j = Some l0 /\ refuses clocks fuel ts d ps previous (i + j) l0 q /\ forall k l', k < j -> nth_error (l :: labels) k = Some l' -> exists e, entry_for clocks fuel d ps previous (i + k) l' e).
          { intros q (j & l0 & Hj & Hr & Hbefore). exists (S j), l0. rewrite <- Nat.add_succ_comm. split; [exact Hj|]. split; [exact Hr|]. intros [|k] l' Hk Ek.
            - cbn in Ek. injection Ek as <-. rewrite Nat.add_0_r. eauto.
            - rewrite <- Nat.add_succ_comm. apply (Hbefore k l'); [lia|exact Ek]. }
          destruct (label_loop clocks fuel d ps previous (S i) cell' labels (dset out l e) (messages ++ match msg with Some m => [m] | None => [] end)) as [out' messages'|q| |q|]; try (apply Fail; exact IH). clear Fail.
          destruct IH as (I1 & I2 & I3 & I4 & cs & ms & I5 & I6 & I7). split; [|split; [|split; [|split]]].
          * intros [|j] l0 Hj; cbn in Hj; [injection Hj as <-; rewrite Nat.add_0_r; eauto|]. rewrite <- Nat.add_succ_comm. exact (I1 j l0 Hj).
          * intros ND0. apply I2. now apply dset_NoDup.
          * intros l0. rewrite I3. assert (K : In l0 (dkeys (dset out l e)) <-> l0 = l \/ In l0 (dkeys out)).
            { rewrite dkeys_dset. unfold dmem. destruct (mem l (dkeys out)) eqn:M; [apply mem_In in M; split; [auto|]; intros [->|H]; assumption|]. rewrite in_app_iff. cbn [In]. intuition congruence. }
            rewrite K. cbn [In]. intuition congruence.
          * intros l0 e0 E0. destruct (I4 l0 e0 E0) as [[E1 Hno]|(j & Hj & Hlast & He)].
            -- rewrite dget_dset in E1. destruct (beq_spec l0 l) as [->|Nl].
               ++ injection E1 as <-. right. exists 0. split; [reflexivity|]. split; [|rewrite Nat.add_0_r; exact En]. intros [|k] Hk; [lia|]. cbn. intros Ek. apply nth_error_In in Ek. contradiction.
               ++ left. split; [exact E1|]. intros [->|H]; [congruence|contradiction].
            -- right. exists (S j). rewrite <- Nat.add_succ_comm. split; [exact Hj|]. split; [|exact He]. intros [|k] Hk; [lia|]. cbn. apply Hlast. lia.
          * exists (c :: cs). destruct msg as [m|].
            -- destruct Hm as (names & Hu & Hne & ->). exists (warning c names :: ms). split; [constructor; assumption|]. split; [rewrite I6, <- app_assoc; reflexivity|]. now apply some_unused.
            -- exists ms. split; [constructor; assumption|]. split; [rewrite I6, app_nil_r; reflexivity|]. now apply all_used.
    Qed.
  End Loop.

  (** ** C48 *)
  (** the lines of the text given as parameters *)
  Definition parameter_lines (q : request) (lines : list pystr) : Prop :=
    match q_parameters q with
    | None => lines = []
    | Some s => lines <> [] /\ join [newline] lines = s /\ forall line, In line lines -> ~ In newline line
    end.
  Definition no_underscores (text text' : pystr) : Prop := text' = filter (fun ch => negb (N.eqb ch 95)) text.
  (** what a request is answered with: the missing arguments, the first bad parameter line, the bad matrix, the first label that
      cannot be answered, or all the entries *)
  Theorem C48_run clocks fuel q :
    (q_algorithm q = [] \/ q_matrix q = None \/ q_matrix q = Some [] -> web_run clocks fuel q = R400 MissingArgs) /\
    (forall text, q_algorithm q <> [] -> q_matrix q = Some text -> text <> [] -> exists lines, parameter_lines q lines /\
       ((exists before line after e, lines = before ++ line :: after /\ (forall s, In s before -> exists it, algorithm_parameter pfloat decimal s = Ok it) /\
           algorithm_parameter pfloat decimal line = Err e /\ web_run clocks fuel q = R400 (BadParams e)) \/
        (exists items, Forall2 (fun s it => algorithm_parameter pfloat decimal s = Ok it) lines items /\ exists text', no_underscores text text' /\
           match csv_to_masked_array parse text' with
           | Err e => web_run clocks fuel q = R400 (BadMatrix (InvalidCsv e))
           | Ok m => exists d, matrix_dataset label false None m = Ok d /\ response_spec clocks fuel (get_triples label m) d (dict_of items) (q_previous q) (q_algorithm q) (web_run clocks fuel q)
           end))).
  Proof.
    unfold Front.web_run. split.
    - intros [-> | [E|E]]; [reflexivity| |]; rewrite E; now destruct (q_algorithm q).
    - intros text Na -> Nt. destruct (q_algorithm q) as [|l0 ls]; [congruence|]. destruct text as [|c0 cs]; [congruence|]. set (labels := l0 :: ls) in *. set (text := c0 :: cs) in *. clearbody labels text.
      exists (match q_parameters q with None => [] | Some s => split_on newline s end). split.
      { unfold parameter_lines. destruct (q_parameters q) as [s|]; [|reflexivity]. split; [apply split_on_nonempty|]. split; [apply join_split|]. intros line. apply split_on_parts. }
      assert (Ep : get_param_dict pfloat decimal (q_parameters q) = (items <- mapM (algorithm_parameter pfloat decimal) (match q_parameters q with None => [] | Some s => split_on newline s end) ;; Ok (dict_of items))).
      { unfold get_param_dict. destruct (q_parameters q); reflexivity. }
      rewrite Ep. clear Ep. set (lines := match q_parameters q with None => [] | Some s => _ end). clearbody lines.
      assert (Q : match mapM (algorithm_parameter pfloat decimal) lines with
                  | Ok items => Forall2 (fun s it => algorithm_parameter pfloat decimal s = Ok it) lines items
                  | Err e => exists before line after, lines = before ++ line :: after /\ (forall s, In s before -> exists it, algorithm_parameter pfloat decimal s = Ok it) /\ algorithm_parameter pfloat decimal line = Err e end).
      { induction lines as [|line lines IH]; cbn [mapM]; [constructor|]. destruct (algorithm_parameter pfloat decimal line) as [it|e] eqn:El; cbn [bind]; [|exists [], line, lines; split; [reflexivity|]; split; [intros s []|exact El]].
        destruct (mapM _ lines) as [items|e]; cbn [bind]; [constructor; assumption|]. destruct IH as (before & line' & after & -> & H1 & H2). exists (line :: before), line', after. split; [reflexivity|]. split; [|exact H2]. intros s [<-|Hs]; eauto. }
      destruct (mapM (algorithm_parameter pfloat decimal) lines) as [items|e]; cbn [bind].
      + right. exists items. split; [exact Q|]. exists (drop_underscores text). split; [reflexivity|]. pose proof (C10_from_csv (F:=F) parse label (drop_underscores text)) as Qc. destruct (csv_to_masked_array parse (drop_underscores text)) as [m|e]; [|now rewrite Qc].
        destruct Qc as (d & -> & Ed). exists d. split; [exact Ed|].
        pose proof (label_loop_spec clocks fuel false None (get_triples label m) d (dict_of items) (q_previous q) Ed (ex_intro _ lines (ex_intro _ items (conj Q eq_refl))) labels 0 (iterator_cell (dict_of items)) [] [] (same_cell_refl _)) as L.
        destruct (label_loop clocks fuel d (dict_of items) (q_previous q) 0 (iterator_cell (dict_of items)) labels [] []) as [out messages|e| |e|]; try exact L.
        destruct L as (L1 & L2 & L3 & L4 & cs' & ms & L5 & -> & L7). split; [exact L1|]. split; [apply L2; constructor|]. split; [intros l; rewrite L3; cbn; tauto|]. split; [|exists cs'; split; [exact L5|exact L7]].
        intros l e E. destruct (L4 l e E) as [[E' _]|H]; [discriminate|exact H].
      + left. destruct Q as (before & line & after & El & H1 & H2). exists before, line, after, e. split; [exact El|]. split; [exact H1|]. split; [exact H2|].
        pose proof (C44_refuses pfloat decimal DEC line e H2) as V. destruct e; try contradiction; reflexivity.
  Qed.
  (** an empty text of parameters is refused: its only line has no "=" *)
  Theorem C48_empty_parameters clocks fuel q text : q_algorithm q <> [] -> q_matrix q = Some text -> text <> [] -> q_parameters q = Some [] -> web_run clocks fuel q = R400 (BadParams BadParameterForm).
  Proof. intros Na Em Nt Ep. unfold Front.web_run. rewrite Em, Ep. destruct (q_algorithm q); [congruence|]. destruct text; [congruence|]. reflexivity. Qed.
  (** the drawings in an answer: a picture of the whole dataset, each node in the shade of its own score *)
  Theorem C48_graph b impf ts (d : data) r g : build b impf ts = Ok d -> full_scores ts r -> drawn d r g ->
    exists pl height cols, dr_width g = 800%Z /\
      dr_entities g = map (fun e => entity_to_dict (py_entity e)) (picture web_sizes (style_of (web_naming show_nat show_w) (GradientScheme r) cols) (arrow_head T web_sizes) ts pl height None) /\
      forall n, graph_node ts n ->
        match n with
        | NSource s => exists x, dget (r_trust r) s = Some x /\ get_graded_colours x = Ok (fst (cols n))
        | NClaim v w => exists m x, dget (r_belief r) v = Some m /\ dget m w = Some x /\ get_graded_colours x = Ok (fst (cols n))
        | NVariable v => cols n = default_node_colour n
        end.
  Proof.
    intros Hb Fu. unfold drawn, frame, render. cbn [rs_colours]. set (st := RState (Some (get_height web_sizes d)) (GradientScheme r)).
    set (cols := fun n => match get_node_colour (fun _ => None) (GradientScheme r) n with Ok c => c | Err _ => ([], [], []) end).
    assert (Dec : (forall n, graph_node ts n -> get_node_colour (fun _ => None) (rs_colours st) n = Ok (cols n)) \/ exists e, snd (compile (fun _ => None) T web_sizes (web_naming show_nat show_w) st d None) = Err e).
    { destruct (snd (compile (fun _ => None) T web_sizes (web_naming show_nat show_w) st d None)) as [es|e] eqn:E; [left|eauto].
      intros n Hn. unfold cols. cbn [rs_colours st]. destruct (get_node_colour (fun _ => None) (GradientScheme r) n) as [c|e] eqn:En; [reflexivity|]. exfalso.
      assert (X : exists e, snd (compile (fun _ => None) T web_sizes (web_naming show_nat show_w) st d None) = Err e) by exact (C51_bad_colour (fun _ => None) T web_sizes (web_naming show_nat show_w) b impf ts d Hb st None n e Hn En). destruct X as [e' X]. congruence. }
    destruct Dec as [Hc|[e He]].
    2:{ destruct (compile _ _ _ _ st d None) as [st' q]. cbn [snd] in He. subst q. cbn [snd bind]. discriminate. }
    destruct (C51_contents (fun _ => None) T web_sizes (web_naming show_nat show_w) b impf ts d Hb st None cols Hc) as (pl & height & E).
    destruct (compile _ _ _ _ st d None) as [st' q]. cbn [snd] in E. subst q. cbn [snd bind]. intros [= <-]. exists pl, height, cols. split; [reflexivity|]. split; [reflexivity|].
    intros n Hn. specialize (Hc n Hn). cbn [rs_colours st] in Hc. destruct n as [s|v w|v]; cbn [graph_node] in Hn; cbn [get_node_colour] in Hc.
    - destruct (full_trust ts r s Fu Hn) as [x Ex]. exists x. split; [exact Ex|]. rewrite Ex in Hc. cbn [of_opt bind] in Hc. destruct (get_graded_colours x) as [[c1 c2]|]; cbn [bind] in Hc; [|discriminate]. injection Hc as <-. reflexivity.
    - destruct (full_belief ts r v w Fu Hn) as (m & x & Em & Ex). exists m, x. split; [exact Em|]. split; [exact Ex|]. unfold belief_level in Hc. rewrite Em in Hc. cbn [of_opt bind] in Hc. rewrite Ex in Hc. cbn [of_opt bind] in Hc.
      destruct (get_graded_colours x) as [[c1 c2]|]; cbn [bind] in Hc; [|discriminate]. injection Hc as <-. reflexivity.
    - reflexivity.
  Qed.
End Web.
