(** Facts about the clients: shared iterators make no difference, output objects can always be made. *)
From Coq Require Import NArith String.
From Verif Require Import Base Num Sparse Spec Dataset DatasetProofs DatasetRep Iterators Algorithms Driver Rounds Results PropsResult PyStr Regex Matrix Supervised Client PropsClient Graph GraphRep PropsRun PropsOutput PropsMatrix Front.

Section FrontRep.
  Context {W : Type} {EW : Eqb W} {F : Num} {FOK : NumOK F}.
  Notation data := (dataset nat nat W F).
  Notation result := (result nat nat W F).
  Notation cobj := (cobj F nat nat W).
  Notation params := (dict pystr (pvalue F)).

  (** ** Shared iterator objects *)
  Definition same_cobj (o o' : cobj) : Prop :=
    match o, o' with
    | OVoting, OVoting => True
    | OIterative o, OIterative o' => o_alg o = o_alg o' /\ o_priors o = o_priors o' /\ reset (o_it o) = reset (o_it o')
    | _, _ => False
    end.
  Definition same_cell (c c' : option (iterator F)) : Prop :=
    match c, c' with Some it, Some it' => reset it = reset it' | None, None => True | _, _ => False end.
  Lemma crun_same (d : data) clock fuel o o' : real d -> same_cobj o o' ->
    fst (crun clock fuel o d) = fst (crun clock fuel o' d) /\ same_cobj (snd (crun clock fuel o d)) o'.
  Proof.
    intros Rd Sm. destruct o as [|[a p it lg]], o' as [|[a' p' it' lg']]; cbn in Sm; try contradiction; [split; [reflexivity|exact I]|].
    destruct Sm as (-> & -> & Hr). destruct (run_reset d clock fuel a' p' it it' lg lg' Rd Hr) as (E & _ & Q & _). cbn [crun].
    destruct (run clock fuel (AObj a' p' it lg) d) as [r o1], (run clock fuel (AObj a' p' it' lg') d) as [r' o1']. cbn [fst snd] in *. split; [exact E|].
    destruct Q as (Q1 & Q2 & Q3). cbn. rewrite Q1, Q2, Q3. auto.
  Qed.
  Lemma frames_same src_tuple T sz {LS LV} `{Eqb LV} (nm : naming nat nat W LS LV) (d : data) clock fuel st (o o' : aobj nat nat W F) show : real d ->
    same_cobj (OIterative o) (OIterative o') ->
    snd (get_frames src_tuple T sz nm clock fuel st o d show) = snd (get_frames src_tuple T sz nm clock fuel st o' d show) /\
    same_cobj (OIterative (snd (fst (get_frames src_tuple T sz nm clock fuel st o d show)))) (OIterative o').
  Proof.
    intros Rd Sm. destruct o as [a p it lg], o' as [a' p' it' lg']. cbn in Sm. destruct Sm as (-> & -> & Hr).
    destruct (run_reset d clock fuel a' p' it it' lg lg' Rd Hr) as (_ & E & _ & Q). unfold get_frames.
    destruct (run_iter clock fuel (AObj a' p' it lg) d) as [r o1], (run_iter clock fuel (AObj a' p' it' lg') d) as [r' o1']. cbn [fst snd] in *. subst r'.
    destruct Q as (Q1 & Q2 & Q3). destruct r as [l|e].
    - destruct (frames_loop src_tuple T sz nm st d show (Z.of_nat (List.length l) - 1) (enumerate l)) as [st' fs]. cbn [fst snd same_cobj]. rewrite Q1, Q2, Q3. auto.
    - cbn [fst snd same_cobj]. rewrite Q1, Q2, Q3. auto.
  Qed.
  Lemma deref_same c (ps : params) (o : cobj) cell : requested c ps = Some o -> same_cell cell (iterator_cell ps) -> same_cobj (deref cell o) o.
  Proof.
    unfold iterator_cell. intros E H. destruct c; try discriminate; cbn in E; injection E as <-; [..|destruct cell; exact I];
      unfold iterator_given; destruct cell as [it|]; destruct (dget ps (lit_str "iterator")) as [[it'| |]|]; cbn in H |- *; try contradiction; auto.
  Qed.
  Lemma store_same c (ps : params) (o o' : cobj) cell : requested c ps = Some o -> same_cell cell (iterator_cell ps) -> same_cobj o' o -> same_cell (store cell o') (iterator_cell ps).
  Proof.
    unfold iterator_cell. intros E H Sm. destruct c; try discriminate; cbn in E; injection E as <-; destruct o' as [|o']; cbn in Sm; try contradiction;
      unfold iterator_given in Sm; destruct cell as [it|]; destruct (dget ps (lit_str "iterator")) as [[it'| |]|]; cbn in H |- *; try contradiction; auto; apply Sm.
  Qed.
  Lemma same_cobj_trans (a b c : cobj) : same_cobj a b -> same_cobj b c -> same_cobj a c.
  Proof. destruct a, b, c; cbn; try tauto. intros (-> & -> & ->). auto. Qed.
  Lemma same_cell_refl c : same_cell c c. Proof. destruct c; cbn; auto. Qed.

  (** ** Output objects *)
  Hypothesis irrefl : forall x : F, n_ltb x x = false.
  Variable ltw : W -> W -> bool.
  Variable rnd : nat -> nat.
  Definition nonempty_beliefs (r : result) : Prop := forall x m, dget (r_belief r) x = Some m -> m <> [].
  Lemma most_ok (r : result) x : nonempty_beliefs r -> In x (dkeys (r_belief r)) -> exists l, get_most_believed_values r x = Ok l /\ l <> [].
  Proof.
    intros N Hx. unfold get_most_believed_values. destruct (dget (r_belief r) x) as [m|] eqn:E; [|apply dget_None in E; contradiction].
    specialize (N x m E). destruct (sort_by _ m) as [|[w q] l] eqn:Es; [exfalso; destruct m as [|p m]; [congruence|]; cbn [sort_by fold_right] in Es; unfold sort_by in Es; cbn [fold_right] in Es; destruct (fold_right _ _ m) as [|y t]; cbn [sort_insert] in Es; [discriminate|destruct (n_ltb _ _) in Es; discriminate]|].
    eexists. split; [reflexivity|]. cbn [until_less]. rewrite irrefl. discriminate.
  Qed.
  Lemma acc_ok (r : result) values : nonempty_beliefs r -> forall e, get_accuracy rnd values r = Err e -> e = NoTrueValues \/ e = NoChoice.
  Proof.
    intros N e. unfold get_accuracy, accuracy_counts. destruct values as [|v0 values]; [intros [= <-]; auto|]. remember (v0 :: values) as vs eqn:Ev. clear Ev v0 values.
    assert (G : forall vs t c, exists q, acc_loop rnd r vs t c = Ok q).
    { clear vs e. induction vs as [|[x w] vs IH]; intros t c; cbn [acc_loop]; [eauto|]. destruct (dget (r_belief r) x) as [m|] eqn:E; [|apply IH].
      destruct (Nat.eqb (List.length m) 1); [apply IH|]. destruct (most_ok r x N) as (l & -> & NE); [exact (dget_dkeys _ _ _ E)|]. cbn [bind]. unfold random_choice.
      destruct (nth_error l (rnd t mod List.length l)) as [y|] eqn:En; [cbn [bind]; apply IH|]. exfalso. apply nth_error_None in En. destruct l as [|y l]; [congruence|].
      pose proof (Nat.mod_upper_bound (rnd t) (List.length (y :: l)) ltac:(discriminate)). lia. }
    destruct (G vs 0 0) as [[t c] ->]. cbn [bind]. destruct (Nat.eqb t 0); [intros [= <-]; auto|]. cbn [bind]. discriminate.
  Qed.
  Lemma output_ok (r : result) fields sup : nonempty_beliefs r -> exists out, get_output_obj ltw rnd r fields sup = Ok out.
  Proof.
    intros N. unfold get_output_obj. generalize (@nil (field * outval nat nat W F)) as out. generalize (match fields with Some (f :: fs) => f :: fs | _ => all_fields end) as l.
    induction l as [|f l IH]; intros out; cbn [output_loop]; [eauto|].
    assert (Q : exists o, output_field ltw rnd r sup f = Ok o).
    { destruct f; cbn [output_field]; eauto.
      - destruct sup as [values|]; [|eauto]. destruct (get_accuracy rnd values r) as [a|e] eqn:E; [eauto|]. destruct (acc_ok r values N e E) as [->| ->]; eauto.
      - assert (G : forall vars acc, (forall x, In x vars -> In x (dkeys (r_belief r))) -> exists d, most_believed_loop ltw r vars acc = Ok d).
        { induction vars as [|x vars IHv]; intros acc H; cbn [most_believed_loop]; [eauto|]. destruct (most_ok r x N) as (l0 & -> & _); [apply H; now left|]. cbn [bind]. apply IHv. intros y Hy. apply H. now right. }
        destruct (G (dkeys (r_belief r)) [] (fun x H => H)) as [dd ->]. cbn [bind]. eauto.
      - destruct (get_trust_stats r). eauto. }
    destruct Q as [o ->]. cbn [bind]. apply IH.
  Qed.
  Lemma filter_nonempty (r : result) srcs vars : nonempty_beliefs r -> nonempty_beliefs (result_filter r srcs vars).
  Proof.
    intros N x m. unfold result_filter. cbn [r_belief]. intros E. apply (N x m). rewrite dget_filter_scores in E. destruct (wanted vars x); [exact E|discriminate].
  Qed.

  (** ** Results of runs: a score for every source and every claim of the dataset *)
  Definition full_scores (ts : list (nat * nat * W)) (r : result) : Prop := exists t b, r_trust r = tdict ts t /\ r_belief r = bdict ts b.
  Lemma full_nonempty ts r : full_scores ts r -> nonempty_beliefs r.
  Proof.
    intros (t & b & _ & Eb) x m. rewrite Eb. unfold bdict, beliefs_of. intros E. apply dget_In in E. apply in_map_iff in E. destruct E as (y & [= -> <-] & Hy).
    apply (proj1 (distinct_In _ _)) in Hy. apply in_map_iff in Hy. destruct Hy as ([y w] & <- & Hc). unfold scores_of. intros Q. apply map_eq_nil in Q.
    assert (In (y, w) (filter (fun c => beq (fst c) y) (claims ts))) by (apply filter_In; split; [exact Hc|apply (beq_refl (A:=nat))]). cbn [fst] in Q. rewrite Q in H. contradiction.
  Qed.
  Lemma crun_full b impf ts (d : data) clock fuel o r o' : build b impf ts = Ok d -> crun clock fuel o d = (Ok r, o') -> full_scores ts r.
  Proof.
    intros Hb E. pose proof (build_rep _ _ _ _ Hb) as R. destruct o as [|[a p it lg]]; cbn [crun] in E.
    - injection E as E _. unfold voting_run in E. destruct (Nat.eqb_spec (num_claims d) 0); [discriminate|]. destruct (npmax (source_counts d)) as [m|]; [|discriminate].
      assert (H1 : List.length (repeat (n_ofZ 1 : F) (num_sources d)) = num_sources d) by apply repeat_length.
      assert (H2 : List.length (vdivs (source_counts d) m) = num_claims d) by (rewrite vdivs_length; exact (source_counts_length ts impf d R)).
      rewrite (trust_dict_vec ts impf d R _ H1), (belief_dict_vec ts impf d R _ H2) in E. injection E as <-. eexists _, _. split; reflexivity.
    - destruct (run clock fuel (AObj a p it lg) d) as [r0 o0] eqn:Er. injection E as -> _. destruct (run_cases b impf ts d Hb clock fuel a p it lg r o0 Er) as (_ & x0 & k & it' & _ & _ & x & _ & ->). eexists _, _. split; reflexivity.
  Qed.
  Lemma run_iter_full b impf ts (d : data) clock fuel o l : build b impf ts = Ok d -> fst (run_iter clock fuel o d) = Ok l -> Forall (full_scores ts) l.
  Proof.
    intros Hb E. pose proof (build_rep _ _ _ _ Hb) as R. destruct o as [a p it lg]. destruct ts as [|t0 tr] eqn:Ets.
    - destruct (C26_empty b impf [] d Hb clock fuel (AObj a p it lg)) as [Q _]. destruct (Q eq_refl) as (_ & Q2 & _). rewrite Q2 in E. discriminate.
    - rewrite <- Ets in *. assert (NE : ts <> []) by (rewrite Ets; discriminate). rewrite (run_iter_char clock ts impf d R NE) in E. destruct (init a p d) as [x0|]; [|discriminate].
      destruct (it_loop _ _ _ fuel (reset it) 0) as [[q k] it']. destruct q as [u|e]; [|discriminate]. destruct (final a it' (scores a d x0 k)); [|discriminate]. cbn [fst] in E. injection E as <-.
      apply Forall_app. split; [unfold initial_log; destruct (logs_initial a); constructor; [|constructor]; eexists _, _; split; reflexivity|].
      apply Forall_forall. intros r Hr. apply in_map_iff in Hr. destruct Hr as (j & <- & _). eexists _, _. split; reflexivity.
  Qed.
  Lemma crun_output b impf ts (d : data) clock fuel o r srcs vars fields sup : build b impf ts = Ok d -> fst (crun clock fuel o d) = Ok r ->
    exists out, get_output_obj ltw rnd (result_filter r srcs vars) fields sup = Ok out.
  Proof.
    intros Hb E. destruct (crun clock fuel o d) as [r0 o'] eqn:Er. cbn [fst] in E. subst r0. apply output_ok, filter_nonempty, (full_nonempty ts). exact (crun_full _ _ _ _ _ _ _ _ _ Hb Er).
  Qed.
  (** what is in an output object *)
  Lemma output_lookup (r : result) fields sup out : get_output_obj ltw rnd r (Some fields) sup = Ok out -> fields <> [] -> forall f,
    dget out f = if mem f fields then match output_field ltw rnd r sup f with Ok o => o | Err _ => None end else None.
  Proof.
    intros E NE f. unfold get_output_obj in E. destruct fields as [|f0 fs]; [congruence|]. clear NE. set (l := f0 :: fs) in *. clearbody l. clear f0 fs.
    assert (G : forall l out0 out, output_loop ltw rnd r sup l out0 = Ok out -> (output_field ltw rnd r sup f = Ok None -> dget out0 f = None) ->
      dget out f = if mem f l then match output_field ltw rnd r sup f with Ok o => o | Err _ => None end else dget out0 f).
    { clear E l out. induction l as [|g l IH]; intros out0 out; cbn [output_loop]; [intros [= ->] _; reflexivity|]. destruct (output_field ltw rnd r sup g) as [o|e] eqn:Eg; cbn [bind]; [|discriminate].
      intros El H0. rewrite (IH _ _ El); clear IH El.
      - unfold mem. cbn [existsb]. fold (mem f l). destruct (mem f l) eqn:M; [now rewrite orb_true_r|]. rewrite orb_false_r. destruct (beq_spec f g) as [->|N].
        + rewrite Eg. destruct o as [v|]; [rewrite dget_dset, beq_refl; reflexivity|]. apply H0. exact Eg.
        + destruct o as [v|]; [|reflexivity]. rewrite dget_dset. destruct (beq_spec f g); [congruence|reflexivity].
      - intros Ef. destruct o as [v|]; [|auto]. rewrite dget_dset. destruct (beq_spec f g) as [->|]; [congruence|auto]. }
    exact (G l [] out E (fun _ => eq_refl)).
  Qed.
End FrontRep.
