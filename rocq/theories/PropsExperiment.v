(** C74: the synthetic experiments (examples/synthetic_experiment.py).  C75: the timing test (examples/timing_test.py). *)
From Coq Require Import Reals Lra.
From Coq Require Import String.
From Verif Require Import Float Base Num Spec Dataset DatasetRep Iterators Algorithms Results PyStr Matrix Supervised PropsMatrix PropsSynth PropsAcc PropsRun PropsFloat Experiment.

Section Experiments.
  Context {F : Num} {FOK : NumOK F} {L : Type} {EL : Eqb L}.
  Notation slots := (dict pystr (slot F)).
  Notation algs_t := (list (pystr * algo F)).

  (** ** Specification *)
  (** what a parameter of the experiment is for the i-th label: a constant for all of them, or the i-th of a sequence.
      None: the sequence is too short *)
  Definition value_at (s : slot F) (i : nat) : option (pvalue F) :=
    match s with
    | Plain (VData (DArray v)) => option_map (fun x => VData (DFloat x)) (nth_error v i)
    | Plain v => Some v
    | Listed l | Iter (Items l) => nth_error l i
    | Iter (Repeat v) => Some v
    end.
  (** the parameters for the i-th label *)
  Definition params_for (sp : slots) (i : nat) (params : dict pystr (pvalue F)) : Prop :=
    dkeys params = dkeys sp /\ forall k s, dget sp k = Some s -> exists v, value_at s i = Some v /\ dget params k = Some v.
  (** in trial t the parameter value [v] stands for the data [d]: itself, or what calling it returns *)
  Definition evaluates (t : nat) (v : pvalue F) (d : pdata F) : Prop := v = VData d \/ exists f, v = VCall f /\ f t = Returns d.
  Definition argument (t : nat) (params : dict pystr (pvalue F)) (key : pystr) (default d : pdata F) : Prop :=
    match dget params key with Some v => evaluates t v d | None => d = default end.
  (** [acc] is the accuracy of a new algorithm object [a] (the j-th of the experiment) on the data of trial [t] with the given parameters *)
  Definition accuracy_of (W : outside F) fuel (t j : nat) (params : dict pystr (pvalue F)) (a : algo F) (acc : F) : Prop :=
    exists trust nv cp dom m tv d r,
      (exists v, dget params (lit_str "trust"%string) = Some v /\ evaluates t v (DArray trust)) /\
      argument t params (lit_str "num_variables"%string) (DInt 100) (DInt nv) /\
      (argument t params (lit_str "claim_probability"%string) (DFloat (lit 1 2)) (DFloat cp) \/ exists z, argument t params (lit_str "claim_probability"%string) (DFloat (lit 1 2)) (DInt z) /\ cp = n_ofZ z) /\
      argument t params (lit_str "domain_size"%string) (DInt 4) (DInt dom) /\
      generate (ou_rng W t) (Trust1 trust) nv cp dom = Ok (m, tv) /\
      matrix_dataset (fun n => n) false None m = Ok d /\
      fst (algo_run W fuel t j a d) = Ok r /\
      get_accuracy (ou_choice W t j) (true_dict tv) r = Ok acc.
  (** a fraction of variables *)
  Definition fraction (q : F) : Prop := exists n t : nat, n <= t /\ 0 < t /\ q = n_div (n_ofZ (Z.of_nat n)) (n_ofZ (Z.of_nat t)).

  (** ** Parameters *)
  Lemma dget_cons {K B : Type} {EK : Eqb K} (d : dict K B) k k' v : dget ((k', v) :: d) k = if beq k k' then Some v else dget d k.
  Proof. reflexivity. Qed.
  Definition all_iters (sp : slots) : Prop := forall k s, In (k, s) sp -> exists i, s = Iter i.
  Lemma init_iters (sp : slots) : all_iters (exp_init sp).
  Proof. intros k s H. apply in_map_iff in H. destruct H as ([k' s'] & [= <- <-] & _). eauto. Qed.
  Lemma init_value (s : slot F) i : value_at (Iter (py_iter s)) i = value_at s i.
  Proof. destruct s as [[[z|x|v]|f]|l|[v|l]]; try reflexivity. cbn. now rewrite nth_error_map. Qed.
  Lemma init_keys (sp : slots) : dkeys (exp_init sp) = dkeys sp.
  Proof. unfold exp_init, dkeys. rewrite map_map. reflexivity. Qed.
  Lemma init_get (sp : slots) k : dget (exp_init sp) k = option_map (fun s => Iter (py_iter s)) (dget sp k).
  Proof. induction sp as [|[k' s] sp IH]; [reflexivity|]. change (exp_init ((k', s) :: sp)) with ((k', Iter (py_iter s)) :: exp_init sp). rewrite !dget_cons. destruct (beq k k'); [reflexivity|exact IH]. Qed.

  (** one value taken from every iterator *)
  Definition advance (s : slot F) : slot F := match s with Iter (Items (_ :: l)) => Iter (Items l) | _ => s end.
  Definition advanced (sp : slots) : slots := map (fun p => (fst p, advance (snd p))) sp.
  Fixpoint values_at (sp : slots) (i : nat) : option (dict pystr (pvalue F)) :=
    match sp with [] => Some [] | (k, s) :: r => match value_at s i, values_at r i with Some v, Some l => Some ((k, v) :: l) | _, _ => None end end.
  Lemma advanced_iters sp : all_iters sp -> all_iters (advanced sp).
  Proof. intros H k s Q. apply in_map_iff in Q. destruct Q as ([k' s'] & [= <- <-] & Q). destruct (H _ _ Q) as [[v|[|v l]] ->]; cbn; eauto. Qed.
  Lemma advance_value i0 i : value_at (Iter i0) 0 <> None -> value_at (advance (Iter i0)) i = value_at (Iter i0) (S i).
  Proof. destruct i0 as [v|[|v l]]; cbn; [reflexivity|congruence|reflexivity]. Qed.
  Lemma values_at_advanced sp i : all_iters sp -> values_at sp 0 <> None -> values_at (advanced sp) i = values_at sp (S i).
  Proof.
    intros H N. induction sp as [|[k s] sp IH]; [reflexivity|]. destruct (H k s) as [i0 ->]; [now left|]. cbn [advanced map fst snd values_at]. cbn [values_at] in N.
    destruct (value_at (Iter i0) 0) eqn:E0; [|congruence]. destruct (values_at sp 0) eqn:E1; [|congruence].
    rewrite advance_value by congruence. fold (advanced sp). rewrite IH; [reflexivity| |congruence]. intros k' s' Q. apply (H k'). now right.
  Qed.
  Lemma get_params_ok sp : all_iters sp -> match values_at sp 0 with Some ps => get_synth_params sp = (Ok ps, advanced sp) | None => fst (get_synth_params sp) = Err ERuntime end.
  Proof.
    intros H. induction sp as [|[k s] sp IH]; [reflexivity|]. destruct (H k s) as [i0 ->]; [now left|]. assert (H' : all_iters sp) by (intros k' s' Q; apply (H k'); now right). specialize (IH H').
    cbn [values_at get_synth_params]. destruct i0 as [v|[|v l]]; cbn [value_at py_next nth_error].
    - destruct (values_at sp 0); [rewrite IH; reflexivity|]. destruct (get_synth_params sp) as [r sp']. cbn in *. now rewrite IH.
    - reflexivity.
    - destruct (values_at sp 0); [rewrite IH; reflexivity|]. destruct (get_synth_params sp) as [r sp']. cbn in *. now rewrite IH.
  Qed.
  Lemma values_params sp i ps : NoDup (dkeys sp) -> values_at sp i = Some ps -> params_for sp i ps.
  Proof.
    revert ps. induction sp as [|[k s] sp IH]; intros ps ND E; cbn [values_at] in E.
    - injection E as <-. split; [reflexivity|discriminate].
    - destruct (value_at s i) eqn:Ev; [|discriminate]. destruct (values_at sp i) as [l|]; [|discriminate]. injection E as <-. cbn in ND. inversion ND as [|? ? N ND']; subst.
      destruct (IH l ND' eq_refl) as [Hk Hg]. split; [cbn; f_equal; exact Hk|]. intros k' s'. rewrite !dget_cons. destruct (beq k' k); [intros [= <-]; eauto|apply Hg].
  Qed.
  Lemma params_values sp i : NoDup (dkeys sp) -> (forall k s, dget sp k = Some s -> value_at s i <> None) -> values_at sp i <> None.
  Proof.
    induction sp as [|[k s] sp IH]; intros ND H; [discriminate|]. cbn [values_at]. cbn in ND. inversion ND as [|? ? N ND']; subst. assert (H0 : value_at s i <> None) by (apply (H k); rewrite dget_cons; now rewrite beq_refl).
    destruct (value_at s i); [|congruence]. destruct (values_at sp i) eqn:E; [discriminate|]. apply IH; [exact ND'|]. intros k' s' G. apply (H k'). rewrite dget_cons. destruct (beq_spec k' k) as [->|_]; [|exact G]. exfalso. apply N. apply dget_In in G. exact (in_map fst _ _ G).
  Qed.

  (** ** Arguments *)
  Lemma call_params_get t : forall (params : dict pystr (pvalue F)) args, call_params t params = Ok args -> dkeys args = dkeys params /\
    forall k, match dget params k with None => dget args k = None | Some v => exists a, dget args k = Some a /\ call_value t v = Ok a end.
  Proof.
    unfold call_params. induction params as [|[k v] params IH]; intros args E; cbn [mapM] in E; [injection E as <-; split; reflexivity|].
    cbn [fst snd] in E. destruct (call_value t v) as [a|e] eqn:Ev; [|discriminate]. cbn [bind] in E. destruct (mapM _ params) as [l|e]; [|discriminate]. cbn [bind] in E. injection E as <-. destruct (IH l eq_refl) as [K G].
    split; [unfold dkeys in *; cbn [map fst]; now rewrite K|]. intros q. rewrite !dget_cons. destruct (beq q k); [eauto|apply G].
  Qed.
  Lemma call_value_data t (v : pvalue F) d : call_value t v = Ok (AData d) -> evaluates t v d.
  Proof. unfold call_value, evaluates. destruct v as [d'|f]; [intros [= ->]; now left|]. destruct (f t) eqn:Ef; try discriminate. intros [= ->]. eauto. Qed.
  Lemma synthetic_ok W t (params : dict pystr (pvalue F)) args m tv : call_params t params = Ok args -> synthetic (ou_rng W t) args = Ok (m, tv) ->
    exists trust nv cp dom, (exists v, dget params (lit_str "trust"%string) = Some v /\ evaluates t v (DArray trust)) /\
      argument t params (lit_str "num_variables"%string) (DInt 100) (DInt nv) /\
      (argument t params (lit_str "claim_probability"%string) (DFloat (lit 1 2)) (DFloat cp) \/ exists z, argument t params (lit_str "claim_probability"%string) (DFloat (lit 1 2)) (DInt z) /\ cp = n_ofZ z) /\
      argument t params (lit_str "domain_size"%string) (DInt 4) (DInt dom) /\
      generate (ou_rng W t) (Trust1 trust) nv cp dom = Ok (m, tv).
  Proof.
    intros Ec Es. destruct (call_params_get t params args Ec) as [_ G]. unfold synthetic in Es. destruct (negb _); [discriminate|].
    assert (A : forall k default d, dflt (AData default) (dget args k) = AData d -> argument t params k default d).
    { intros k default d. specialize (G k). unfold argument. destruct (dget params k) as [v|]; [destruct G as (x & -> & Ev)|rewrite G]; cbn [dflt]; [intros ->; now apply call_value_data|now intros [= ->]]. }
    destruct (dget args k_trust) as [[[z|x|trust]|]|] eqn:E1; try discriminate. destruct (dflt (AData (DInt 100)) _) as [[nv|x|w]|] eqn:E2; try discriminate.
    destruct (dflt (AData (DFloat (lit 1 2))) _) as [cp|] eqn:E3; try discriminate. destruct (dflt (AData (DInt 4)) _) as [[dom|x|w]|] eqn:E4; try (destruct cp; discriminate).
    apply A in E2, E3, E4. assert (E1' : exists v, dget params k_trust = Some v /\ evaluates t v (DArray trust)).
    { specialize (G k_trust). destruct (dget params k_trust) as [v|]; [|congruence]. destruct G as (x & Ex & Ev). exists v. split; [reflexivity|]. apply call_value_data. congruence. }
    destruct cp as [z|p|w]; [|exists trust, nv, p, dom|discriminate].
    - exists trust, nv, (n_ofZ z), dom. destruct (generate _ _ _ _ _) as [q|e] eqn:Eg; [|discriminate]. injection Es as ->. split; [exact E1'|]. split; [exact E2|]. split; [right; eauto|]. auto.
    - destruct (generate _ _ _ _ _) as [q|e] eqn:Eg; [|discriminate]. injection Es as ->. split; [exact E1'|]. split; [exact E2|]. split; [left; exact E3|]. auto.
  Qed.
  (** a TypeError raised by a callable parameter is swallowed: the callable itself is passed on, so that the trial ends in another TypeError *)
  Theorem C74_callable_type_error W fuel t (params : dict pystr (pvalue F)) algs results k f :
    dget params k = Some (VCall f) -> f t = RaisesTypeError -> (forall k' f', dget params k' = Some (VCall f') -> f' t <> RaisesOther) -> NoDup (dkeys params) ->
    trial W fuel t params algs results = (Err ETypeError, algs).
  Proof.
    intros Hk Hf Ho ND. assert (C : exists args, call_params t params = Ok args).
    { clear Hk. unfold call_params. revert Ho ND. induction params as [|[q v] ps IH]; intros Ho ND; cbn [mapM]; [eauto|]. unfold dkeys in ND. cbn [map fst] in ND. inversion ND as [|? ? N ND']; subst. cbn [fst snd].
      destruct IH as (l & ->); [|exact ND'|].
      - intros k' f' Hg. apply (Ho k' f'). rewrite dget_cons. destruct (beq_spec k' q) as [->|_]; [|exact Hg]. exfalso. apply N. apply dget_In in Hg. exact (in_map fst _ _ Hg).
      - destruct v as [d|g]; cbn [call_value bind]; [eauto|]. specialize (Ho q g). rewrite dget_cons, beq_refl in Ho. specialize (Ho eq_refl). destruct (g t); cbn [bind]; [eauto|eauto|congruence]. }
    destruct C as (args & Ec). unfold trial. rewrite Ec. cbn [bind]. destruct (call_params_get t params args Ec) as [K G]. pose proof (G k) as Gk. rewrite Hk in Gk. destruct Gk as (a & Ga & Ea). cbn [call_value] in Ea. rewrite Hf in Ea. injection Ea as <-.
    assert (E : synthetic (ou_rng W t) args = Err ETypeError); [|now rewrite E]. unfold synthetic. destruct (negb _) eqn:En; [reflexivity|]. apply Bool.negb_false_iff in En. rewrite forallb_forall in En.
    assert (Hin : In k (dkeys args)) by (apply dget_In in Ga; exact (in_map fst _ _ Ga)). specialize (En k Hin). apply mem_In in En. destruct En as [<-|[<-|[<-|[<-|[]]]]]; rewrite Ga; cbn [dflt].
    - reflexivity.
    - destruct (dget args k_trust) as [[[z|x|v]|]|]; reflexivity.
    - destruct (dget args k_trust) as [[[z|x|v]|]|]; try reflexivity. destruct (dflt _ _) as [[z|x|w]|]; reflexivity.
    - destruct (dget args k_trust) as [[[z|x|v]|]|]; try reflexivity. destruct (dflt _ _) as [[z|x|w]|]; try reflexivity. destruct (dflt _ _) as [d|]; [|reflexivity]. reflexivity.
  Qed.

  (** ** Algorithm objects are as good as new *)
  Definition same (a b : algo F) : Prop :=
    match a, b with
    | AVoting, AVoting => True
    | AIterative o, AIterative o' => o_alg o = o_alg o' /\ o_priors o = o_priors o' /\ reset (o_it o) = reset (o_it o')
    | _, _ => False
    end.
  Definition sames (l l' : algs_t) : Prop := Forall2 (fun p q => fst p = fst q /\ same (snd p) (snd q)) l l'.
  Lemma same_refl a : same a a. Proof. destruct a; cbn; auto. Qed.
  Lemma sames_refl l : sames l l. Proof. induction l; constructor; auto using same_refl. Qed.
  Lemma algo_run_same W fuel t j a b d : real d -> same a b -> fst (algo_run W fuel t j a d) = fst (algo_run W fuel t j b d) /\ same (snd (algo_run W fuel t j a d)) b.
  Proof.
    intros R H. destruct a as [|[al p it lg]], b as [|[al' p' it' lg']]; cbn in H; try contradiction; [split; [reflexivity|exact Logic.I]|]. destruct H as (-> & -> & Hr).
    destruct (run_reset d (ou_clock W t j) fuel al' p' it it' lg lg' R Hr) as (E & _ & (H1 & H2 & H3) & _). cbn [algo_run].
    destruct (run _ fuel (AObj al' p' it lg) d) as [r o], (run _ fuel (AObj al' p' it' lg') d) as [r' o']. cbn in *. split; [exact E|]. repeat split; congruence.
  Qed.

  Lemma algs_loop_same W fuel t d values algs0 : real d -> forall algs j results, sames algs algs0 -> sames (snd (algs_loop W fuel t j algs d values results)) algs0.
  Proof.
    intros R. induction algs0 as [|[al0 a0] algs0 IH]; intros algs j results H; inversion H as [|[al a] ? algs' ? [Hf Hs] H']; subst; [constructor|]. cbn [fst snd] in *. subst al0. cbn [algs_loop].
    destruct (algo_run_same W fuel t j a a0 d R Hs) as [_ Q]. destruct (algo_run W fuel t j a d) as [r a']. cbn [fst snd] in Q. destruct r as [r|e]; [|constructor; auto].
    destruct (get_accuracy _ _ _) as [acc|e]; [|constructor; auto]. specialize (IH algs' (S j) (dset results al (dflt [] (dget results al) ++ [acc])) H').
    destruct (algs_loop W fuel t (S j) algs' d values _) as [out rest']. cbn [snd] in *. constructor; auto.
  Qed.
  Lemma algs_loop_ok W fuel t d values algs0 : real d -> NoDup (map fst algs0) -> forall algs j results out st, sames algs algs0 -> algs_loop W fuel t j algs d values results = (Ok out, st) ->
    dkeys out = dkeys results ++ filter (fun k => negb (mem k (dkeys results))) (map fst algs0) /\
    (forall i al a, nth_error algs0 i = Some (al, a) -> exists r acc, fst (algo_run W fuel t (j + i) a d) = Ok r /\ get_accuracy (ou_choice W t (j + i)) values r = Ok acc /\ dget out al = Some (dflt [] (dget results al) ++ [acc])) /\
    (forall al, ~ In al (map fst algs0) -> dget out al = dget results al).
  Proof.
    intros R. induction algs0 as [|[al0 a0] algs0 IH]; intros ND algs j results out st H E; inversion H as [|[al a] ? algs' ? [Hf Hs] H']; subst.
    - cbn in E. injection E as <- <-. cbn. rewrite app_nil_r. split; [reflexivity|]. split; [|reflexivity]. intros [|i]; discriminate.
    - cbn [fst snd map] in *. subst al0. inversion ND as [|? ? N ND']; subst. cbn [algs_loop] in E. destruct (algo_run_same W fuel t j a a0 d R Hs) as [Q _]. destruct (algo_run W fuel t j a d) as [r a']. cbn [fst] in Q.
      destruct r as [r|e]; [|discriminate]. destruct (get_accuracy (ou_choice W t j) values r) as [acc|e] eqn:Ea; [|discriminate].
      destruct (algs_loop W fuel t (S j) algs' d values _) as [o rest'] eqn:El. injection E as -> <-. destruct (IH ND' algs' (S j) _ _ _ H' El) as (K & G & O). split; [|split].
      + rewrite K, dkeys_dset. unfold dmem. cbn [filter]. destruct (mem al (dkeys results)) eqn:Em; cbn [negb]; [reflexivity|]. rewrite <- app_assoc. cbn [app]. f_equal. f_equal. apply filter_ext_in. intros k Hk. f_equal.
        assert (Nk : k <> al) by (intros ->; now apply N). apply Bool.eq_iff_eq_true. rewrite !mem_In, in_app_iff. cbn. intuition congruence.
      + intros [|i] al1 a1 Hn; cbn in Hn.
        * injection Hn as <- <-. exists r, acc. rewrite Nat.add_0_r. split; [now rewrite <- Q|]. split; [exact Ea|]. rewrite O by exact N. rewrite dget_dset, beq_refl. reflexivity.
        * destruct (G i al1 a1 Hn) as (r1 & acc1 & H1 & H2 & H3). exists r1, acc1. rewrite Nat.add_succ_r. cbn [plus] in H1, H2. split; [exact H1|]. split; [exact H2|]. rewrite H3, dget_dset.
          destruct (beq_spec al1 al) as [->|_]; [|reflexivity]. exfalso. apply N. apply nth_error_In in Hn. exact (in_map fst _ _ Hn).
      + intros al1 Hn. rewrite O by (intros Q1; apply Hn; now right). rewrite dget_dset. destruct (beq_spec al1 al) as [->|_]; [|reflexivity]. exfalso. apply Hn. now left.
  Qed.

  Lemma trial_same W fuel t ps algs algs0 results : sames algs algs0 -> sames (snd (trial W fuel t ps algs results)) algs0.
  Proof.
    intros H. unfold trial. destruct (bind _ _) as [[m tv]|e]; [|exact H]. destruct (matrix_dataset _ _ _ _) as [d|e] eqn:E; [|exact H]. apply algs_loop_same; [exists false, None, (get_triples (fun n => n) m); exact E|exact H].
  Qed.
  Lemma reps_loop_same W fuel n : forall t ps algs algs0 results, sames algs algs0 -> sames (snd (reps_loop W fuel n t ps algs results)) algs0.
  Proof.
    induction n as [|n IH]; intros t ps algs algs0 results H; [exact H|]. cbn [reps_loop]. pose proof (trial_same W fuel t ps algs algs0 results H) as Q. destruct (trial W fuel t ps algs results) as [[r|e] algs']; [now apply IH|exact Q].
  Qed.
  Lemma accuracy_fraction {S V W : Type} {ES : Eqb S} {EV : Eqb V} {EW : Eqb W} rnd (values : dict V W) (r : result S V W F) q : get_accuracy rnd values r = Ok q -> fraction q.
  Proof.
    unfold get_accuracy, accuracy_counts. destruct values as [|p l]; [discriminate|]. assert (G : forall items t c t' c', c <= t -> acc_loop rnd r items t c = Ok (t', c') -> c' <= t').
    { induction items as [|[x w] items IH]; intros t c t' c' H E; cbn [acc_loop] in E; [injection E as <- <-; exact H|]. destruct (dget (r_belief r) x); [|exact (IH _ _ _ _ H E)]. destruct (Nat.eqb _ 1); [exact (IH _ _ _ _ H E)|].
      destruct (get_most_believed_values r x); [|discriminate]. cbn [bind] in E. destruct (random_choice rnd t a); [|discriminate]. cbn [bind] in E. apply IH in E; [exact E|]. destruct (beq a0 w); lia. }
    destruct (acc_loop rnd r (p :: l) 0 0) as [[t c]|e] eqn:E; [|discriminate]. cbn [bind]. destruct (Nat.eqb_spec t 0) as [|N]; [discriminate|]. cbn [bind]. intros [= <-]. exists c, t. split; [exact (G _ _ _ _ _ (le_n 0) E)|]. split; [lia|reflexivity].
  Qed.

  Lemma reps_loop_ok W fuel ps algs0 : NoDup (map fst algs0) -> forall n t algs results out st, sames algs algs0 -> (results = [] \/ dkeys results = map fst algs0) ->
    reps_loop W fuel n t ps algs results = (Ok out, st) ->
    (dkeys out = match n with O => dkeys results | _ => map fst algs0 end) /\
    forall j al a, nth_error algs0 j = Some (al, a) -> exists accs, dget out al = (match n with O => dget results al | _ => Some (dflt [] (dget results al) ++ accs) end) /\ length accs = n /\
      forall r acc, nth_error accs r = Some acc -> accuracy_of W fuel (t + r) j ps a acc.
  Proof.
    intros ND. induction n as [|n IH]; intros t algs results out st H HR E; cbn [reps_loop] in E.
    - injection E as <- <-. split; [reflexivity|]. intros j al a _. exists []. split; [reflexivity|]. split; [reflexivity|]. intros [|r] acc; discriminate.
    - pose proof (trial_same W fuel t ps algs algs0 results H) as Hs. destruct (trial W fuel t ps algs results) as [[r1|e] algs'] eqn:Et; [|discriminate]. cbn [snd] in Hs.
      unfold trial in Et. destruct (call_params t ps) as [args|e] eqn:Ec; [|discriminate]. cbn [bind] in Et. destruct (synthetic (ou_rng W t) args) as [[m tv]|e] eqn:Es; [|discriminate].
      destruct (matrix_dataset (fun n => n) false None m) as [d|e] eqn:Ed; [|discriminate]. assert (R : real d) by (exists false, None, (get_triples (fun n => n) m); exact Ed).
      destruct (algs_loop_ok W fuel t d (true_dict tv) algs0 R ND algs 0 results r1 algs' H Et) as (K & G & O).
      assert (K' : dkeys r1 = map fst algs0).
      { rewrite K. destruct HR as [->|HR]; [cbn; clear; induction (map fst algs0) as [|k l IHl]; [reflexivity|cbn; now f_equal]|]. rewrite HR. assert (FN : forall (f : pystr -> bool) l, (forall k, In k l -> f k = false) -> filter f l = []) by (clear; intros f l Hl; induction l as [|k l IHl]; [reflexivity|]; cbn; rewrite (Hl k) by (now left); apply IHl; intros k' Hk'; apply Hl; now right). rewrite FN; [apply app_nil_r|]. intros k Hk. apply Bool.negb_false_iff. now apply mem_In. }
      destruct (IH (S t) algs' r1 out st Hs (or_intror K') E) as [K2 G2]. split; [destruct n; [now rewrite K2|exact K2]|].
      intros j al a Hn. destruct (G j al a Hn) as (r & acc & H1 & H2 & H3). destruct (G2 j al a Hn) as (accs & H4 & H5 & H6). exists (acc :: accs). split; [|split; [cbn; now rewrite H5|]].
      + destruct n; [destruct accs; [|discriminate]; now rewrite H4, H3|]. rewrite H4, H3. cbn [dflt]. now rewrite <- app_assoc.
      + intros [|r'] acc' Hr; cbn in Hr; [injection Hr as <-; rewrite Nat.add_0_r; destruct (synthetic_ok W t ps args m tv Ec Es) as (trust & nv & cp & dom & P1 & P2 & P3 & P4 & P5); exists trust, nv, cp, dom, m, tv, d, r; auto 10|]. rewrite Nat.add_succ_r. now apply (H6 r' acc').
  Qed.

  Lemma labels_loop_ok W fuel reps algs0 : NoDup (map fst algs0) -> forall labels t (sp : slots) algs (out : dict L (dict pystr (list F))) out' sp' algs', NoDup labels -> (forall l, In l labels -> ~ In l (dkeys out)) -> NoDup (dkeys sp) -> all_iters sp -> sames algs algs0 ->
    labels_loop W fuel reps t labels sp algs out = (Ok out', (sp', algs')) ->
    dkeys out' = dkeys out ++ labels /\ (forall l, ~ In l labels -> dget out' l = dget out l) /\
    (forall i l, nth_error labels i = Some l -> exists ps results, values_at sp i = Some ps /\ dget out' l = Some results /\
       dkeys results = (match reps with O => [] | _ => map fst algs0 end) /\
       forall j al a, nth_error algs0 j = Some (al, a) -> 0 < reps -> exists accs, dget results al = Some accs /\ length accs = reps /\
         forall r acc, nth_error accs r = Some acc -> accuracy_of W fuel (t + i * reps + r) j ps a acc) /\
    all_iters sp' /\ dkeys sp' = dkeys sp /\ (forall i, values_at sp' i = values_at sp (length labels + i)) /\ sames algs' algs0.
  Proof.
    intros NDa. induction labels as [|l0 labels IH]; intros t sp algs out out' sp' algs' NDl Dis NDs HI HS E; cbn [labels_loop] in E.
    - injection E as <- <- <-. rewrite app_nil_r. split; [reflexivity|]. split; [reflexivity|]. split; [intros [|i]; discriminate|]. auto.
    - inversion NDl as [|? ? N0 NDl']; subst. pose proof (get_params_ok sp HI) as Q. destruct (values_at sp 0) as [ps|] eqn:Ev.
      2: { destruct (get_synth_params sp) as [r sp1]. cbn in Q. subst r. discriminate. }
      rewrite Q in E. assert (P : params_for sp 0 ps) by now apply values_params. assert (Eps : dict_of ps = ps) by (apply dict_of_distinct; change (NoDup (dkeys ps)); now rewrite (proj1 P)). rewrite Eps in E.
      destruct (reps_loop W fuel reps t ps algs []) as [[results|e] algs1] eqn:Er; [|discriminate].
      assert (HS1 : sames algs1 algs0) by (pose proof (reps_loop_same W fuel reps t ps algs algs0 [] HS) as Z; now rewrite Er in Z).
      destruct (reps_loop_ok W fuel ps algs0 NDa reps t algs [] results algs1 HS (or_introl eq_refl) Er) as [K G].
      assert (HIa : all_iters (advanced sp)) by now apply advanced_iters. assert (Ka : dkeys (advanced sp) = dkeys sp) by (unfold advanced, dkeys; now rewrite map_map).
      assert (NVa : values_at sp 0 <> None) by congruence.
      destruct (IH (t + reps) (advanced sp) algs1 (dset out l0 results) out' sp' algs' NDl') as (K' & O' & G' & I' & Ks' & V' & S'); [|now rewrite Ka|exact HIa|exact HS1|exact E|].
      { intros l Hl. rewrite dkeys_dset. assert (Dl : ~ In l (dkeys out)) by (apply Dis; now right). destruct (dmem out l0); [exact Dl|]. rewrite in_app_iff. intros [Z|[Z|[]]]; [now apply Dl|]. subst l. now apply N0. }
      split; [|split; [|split; [|split; [exact I'|split; [congruence|split; [|exact S']]]]]].
      + rewrite K', dkeys_dset. assert (Dm : dmem out l0 = false) by (apply mem_false; apply Dis; now left). rewrite Dm, <- app_assoc. reflexivity.
      + intros l Hl. rewrite O' by (intros Z; apply Hl; now right). rewrite dget_dset. destruct (beq_spec l l0) as [->|_]; [|reflexivity]. exfalso. apply Hl. now left.
      + intros [|i] l Hn; cbn in Hn.
        * injection Hn as <-. exists ps, results. split; [exact Ev|]. split; [rewrite O' by exact N0; now rewrite dget_dset, beq_refl|]. split; [destruct reps; exact K|].
          intros j al a Ha Hr. destruct (G j al a Ha) as (accs & H1 & H2 & H3). exists accs. destruct reps as [|n]; [lia|]. split; [exact H1|]. split; [exact H2|]. intros r acc Hacc. cbn [Nat.mul]. rewrite Nat.add_0_r. now apply H3.
        * destruct (G' i l Hn) as (ps1 & res1 & H1 & H2 & H3 & H4). exists ps1, res1. rewrite (values_at_advanced sp i HI NVa) in H1. split; [exact H1|]. split; [exact H2|]. split; [exact H3|].
          intros j al a Ha Hr. destruct (H4 j al a Ha Hr) as (accs & A1 & A2 & A3). exists accs. split; [exact A1|]. split; [exact A2|]. intros r acc Hacc. replace (t + S i * reps + r) with (t + reps + i * reps + r) by (cbn; lia). now apply A3.
      + intros i. rewrite V', (values_at_advanced sp _ HI NVa). reflexivity.
  Qed.
  Lemma exp_init_value (sp : slots) i : values_at (exp_init sp) i = values_at sp i.
  Proof. induction sp as [|[k s] sp IH]; [reflexivity|]. change (exp_init ((k, s) :: sp)) with ((k, Iter (py_iter s)) :: exp_init sp). cbn [values_at]. now rewrite init_value, IH. Qed.

  (** ** C74 *)
  (** What a run of a newly constructed experiment returns: for every label, in order, and every algorithm, in order, one accuracy per
      repetition, that of a new object of the algorithm on data made with the parameters for that label; all of them fractions. *)
  Theorem C74_results W fuel reps (labels : list L) (sp : slots) algs out after : NoDup labels -> NoDup (dkeys sp) -> NoDup (map fst algs) ->
    exp_run W fuel reps labels (exp_init sp) algs = (Ok out, after) ->
    dkeys out = labels /\
    forall i l, nth_error labels i = Some l -> exists params results, params_for sp i params /\ dget out l = Some results /\
      dkeys results = (if Nat.eqb reps 0 then [] else map fst algs) /\
      forall j al a, nth_error algs j = Some (al, a) -> 0 < reps -> exists accs, dget results al = Some accs /\ length accs = reps /\
        forall r acc, nth_error accs r = Some acc -> accuracy_of W fuel (i * reps + r) j params a acc /\ fraction acc.
  Proof.
    intros H1 H2 H3 E. destruct after as [sp' algs']. destruct (labels_loop_ok W fuel reps algs H3 labels 0 (exp_init sp) algs [] out sp' algs' H1) as (K & _ & G & _); [intros l _ []|now rewrite init_keys|apply init_iters|apply sames_refl|exact E|].
    split; [exact K|]. intros i l Hn. destruct (G i l Hn) as (ps & results & Hv & Hd & Hk & Ha). rewrite exp_init_value in Hv. exists ps, results. split; [now apply values_params|]. split; [exact Hd|]. split; [destruct reps; exact Hk|].
    intros j al a Hj Hr. destruct (Ha j al a Hj Hr) as (accs & A1 & A2 & A3). exists accs. split; [exact A1|]. split; [exact A2|]. intros r acc Hacc. specialize (A3 r acc Hacc). cbn [plus] in A3. split; [exact A3|].
    destruct A3 as (trust & nv & cp & dom & m & tv & d & res & _ & _ & _ & _ & _ & _ & _ & Q). exact (accuracy_fraction _ _ _ _ Q).
  Qed.

  (** RuntimeError comes out only if some parameter has too few values, and then no result does. *)
  Lemma reps_loop_no_runtime (W : outside F) fuel ps : forall n t algs results, fst (reps_loop W fuel n t ps algs results) <> Err ERuntime.
  Proof.
    induction n as [|n IH]; intros t algs results; [discriminate|]. cbn [reps_loop]. assert (T : fst (trial W fuel t ps algs results) <> Err ERuntime).
    { unfold trial. destruct (call_params t ps) as [args|e] eqn:Ec; cbn [bind].
      - destruct (synthetic (ou_rng W t) args) as [[m tv]|e] eqn:Es.
        + destruct (matrix_dataset _ _ _ _) as [d|e]; [|discriminate]. assert (G : forall l j res, fst (algs_loop W fuel t j l d (true_dict tv) res) <> Err ERuntime).
          { induction l as [|[al a] l IHl]; intros j res; [discriminate|]. cbn [algs_loop]. destruct (algo_run W fuel t j a d) as [[r|e] a']; [|discriminate]. destruct (get_accuracy _ _ _) as [acc|e]; [|discriminate].
            specialize (IHl (S j) (dset res al (dflt [] (dget res al) ++ [acc]))). destruct (algs_loop W fuel t (S j) l d (true_dict tv) _). exact IHl. }
          apply G.
        + unfold synthetic in Es. cbn [fst]. intros [= ->]. destruct (negb _); [discriminate|]. destruct (dget args k_trust) as [[[z|x|v]|]|]; try discriminate. destruct (dflt _ _) as [[z|x|w]|]; try discriminate. destruct (dflt _ _) as [d|]; try discriminate. destruct (dflt _ _) as [[z'|x|w]|]; try discriminate.
          destruct d; try discriminate; destruct (generate _ _ _ _ _); discriminate.
      - cbn [fst]. intros [= ->]. unfold call_params in Ec. revert Ec. clear. induction ps as [|[k v] ps IH]; cbn [mapM]; [discriminate|]. cbn [fst snd]. unfold call_value at 1. destruct v as [d|f].
        + cbn [bind]. destruct (mapM _ ps); [discriminate|]. exact IH.
        + destruct (f t); cbn [bind]; try discriminate; destruct (mapM _ ps); try discriminate; exact IH. }
    destruct (trial W fuel t ps algs results) as [[r|e] algs']; [apply IH|exact T].
  Qed.
  Lemma labels_loop_runtime (W : outside F) fuel reps : forall labels t (sp : slots) algs (out : dict L (dict pystr (list F))), all_iters sp ->
    match fst (labels_loop W fuel reps t labels sp algs out) with
    | Ok _ => forall i, i < length labels -> values_at sp i <> None
    | Err ERuntime => exists i, i < length labels /\ values_at sp i = None
    | _ => True
    end.
  Proof.
    induction labels as [|l0 labels IH]; intros t sp algs out HI; cbn [labels_loop]; [intros i Hi; cbn in Hi; lia|]. pose proof (get_params_ok sp HI) as Q. destruct (values_at sp 0) as [ps|] eqn:Ev.
    - rewrite Q. pose proof (reps_loop_no_runtime W fuel (dict_of ps) reps t algs []) as NR. destruct (reps_loop W fuel reps t (dict_of ps) algs []) as [[results|e] algs1]; cbn [fst] in *; [|destruct e; try exact Logic.I; congruence].
      specialize (IH (t + reps) (advanced sp) algs1 (dset out l0 results) (advanced_iters sp HI)). assert (NV : values_at sp 0 <> None) by congruence.
      destruct (fst (labels_loop W fuel reps (t + reps) labels (advanced sp) algs1 (dset out l0 results))) as [o|e].
      + intros [|i] Hi; [congruence|]. rewrite <- (values_at_advanced sp i HI NV). apply IH. cbn in Hi. lia.
      + destruct e; try exact Logic.I. destruct IH as (i & Hi & Ei). exists (S i). rewrite (values_at_advanced sp i HI NV) in Ei. cbn. split; [lia|exact Ei].
    - destruct (get_synth_params sp) as [r sp1]. cbn in Q. subst r. cbn [fst]. exists 0. cbn. split; [lia|exact Ev].
  Qed.
  Definition too_short (sp : slots) (n : nat) : Prop := exists k s i, dget sp k = Some s /\ i < n /\ value_at s i = None.
  Lemma values_none_short (sp : slots) n : NoDup (dkeys sp) -> (exists i, i < n /\ values_at sp i = None) <-> too_short sp n.
  Proof.
    intros ND. split.
    - intros (i & Hi & E). assert (G : exists k s, dget sp k = Some s /\ value_at s i = None).
      { revert E ND. clear. induction sp as [|[k s] sp IH]; [discriminate|]. cbn [values_at]. intros E ND. cbn in ND. inversion ND as [|? ? N ND']; subst. destruct (value_at s i) eqn:Ev; [|exists k, s; rewrite dget_cons, beq_refl; auto].
        destruct (values_at sp i); [discriminate|]. destruct (IH eq_refl ND') as (k' & s' & G & E'). exists k', s'. rewrite dget_cons. destruct (beq_spec k' k) as [->|_]; [|auto]. exfalso. apply N. apply dget_In in G. exact (in_map fst _ _ G). }
      destruct G as (k & s & G & E'). exists k, s, i. auto.
    - intros (k & s & i & G & Hi & E). exists i. split; [exact Hi|]. destruct (values_at sp i) as [ps|] eqn:Ev; [|reflexivity]. destruct (values_params sp i ps ND Ev) as [_ P]. destruct (P k s G) as (v & E' & _). congruence.
  Qed.
  Theorem C74_too_few_values W fuel reps (labels : list L) (sp : slots) algs : NoDup (dkeys sp) ->
    (too_short sp (length labels) -> exists e, fst (exp_run W fuel reps labels (exp_init sp) algs) = Err e) /\
    (fst (exp_run W fuel reps labels (exp_init sp) algs) = Err ERuntime -> too_short sp (length labels)) /\
    ((exists k s, dget sp k = Some s /\ value_at s 0 = None) -> labels <> [] -> fst (exp_run W fuel reps labels (exp_init sp) algs) = Err ERuntime).
  Proof.
    intros ND. pose proof (labels_loop_runtime W fuel reps labels 0 (exp_init sp) algs [] (init_iters sp)) as Q. fold (exp_run W fuel reps labels (exp_init sp) algs) in Q. repeat split.
    - intros H. apply (values_none_short sp (length labels) ND) in H. destruct H as (i & Hi & E). destruct (fst (exp_run W fuel reps labels (exp_init sp) algs)) as [o|e]; [|eauto]. exfalso. apply (Q i Hi). now rewrite exp_init_value.
    - intros E. rewrite E in Q. apply (values_none_short sp (length labels) ND). destruct Q as (i & Hi & E'). exists i. now rewrite exp_init_value in E'.
    - intros (k & s & G & Ev) NE. destruct labels as [|l labels]; [congruence|]. unfold exp_run. cbn [labels_loop]. assert (E0 : values_at (exp_init sp) 0 = None).
      { rewrite exp_init_value. destruct (values_at sp 0) as [ps|] eqn:Ep; [|reflexivity]. destruct (values_params sp 0 ps ND Ep) as [_ P]. destruct (P k s G) as (v & Z & _). congruence. }
      pose proof (get_params_ok (exp_init sp) (init_iters sp)) as Z. rewrite E0 in Z. destruct (get_synth_params (exp_init sp)) as [r sp1]. cbn in Z. now subst r.
  Qed.

  (** The iterators belong to the class, and are used up. *)
  (** Histories of a subclass whose independent variable is [key]: constructing objects and running them (any of them: the iterators are
      shared), each run with its own surroundings, repetitions and algorithm objects. *)
  Inductive exp_op := Construct | RunOne (W : outside F) (fuel reps : nat) (algs : algs_t).
  Definition exp_step (key : pystr) (values : list (pvalue F)) (labels : list L) (sp : slots) (o : exp_op) : slots :=
    match o with Construct => exp_construct key values sp | RunOne W fuel reps algs => fst (snd (exp_run W fuel reps labels sp algs)) end.
  Definition exp_history key values labels (sp : slots) (h : list exp_op) : slots := fold_left (exp_step key values labels) h sp.
  (** a parameter that does not change: not an array, and not a sequence *)
  Definition constant (s : slot F) : Prop := exists v, s = Plain v /\ forall l, v <> VData (DArray l).

  Section Class.
    Variables (key : pystr) (values : list (pvalue F)) (labels : list L) (sp0 : slots).
    Hypothesis ND : NoDup (dkeys sp0).
    Hypothesis Const : forall k s, dget sp0 k = Some s -> k <> key -> constant s.
    Hypothesis Has : In key (dkeys sp0).
    (** everything but the independent variable is as at first *)
    Definition others_ok (sp : slots) : Prop := dkeys sp = dkeys sp0 /\ forall k, k <> key -> option_map py_iter (dget sp k) = option_map py_iter (dget sp0 k).
    Lemma construct_fresh sp : others_ok sp -> exp_construct key values sp = exp_construct key values sp0.
    Proof.
      intros [Hk Ho]. unfold exp_construct. assert (K : dkeys (dset sp key (Listed values)) = dkeys (dset sp0 key (Listed values))) by (rewrite !dkeys_dset; unfold dmem; now rewrite Hk).
      assert (G : forall k, option_map py_iter (dget (dset sp key (Listed values)) k) = option_map py_iter (dget (dset sp0 key (Listed values)) k)).
      { intros k. rewrite !dget_dset. destruct (beq_spec k key) as [->|N]; [reflexivity|now apply Ho]. }
      assert (N1 : NoDup (dkeys (dset sp0 key (Listed values)))) by now apply dset_NoDup. revert K G N1. generalize (dset sp key (Listed values)) (dset sp0 key (Listed values)). clear.
      intros s. induction s as [|[k x] s IH]; intros [|[k' x'] s'] K G N; try discriminate K; [reflexivity|]. change (k :: dkeys s = k' :: dkeys s') in K. injection K as -> K. change (NoDup (k' :: dkeys s')) in N. inversion N as [|? ? N0 N']; subst. pose proof (G k') as Gk. rewrite !dget_cons, beq_refl in Gk. cbn in Gk. injection Gk as Gk. unfold exp_init. cbn [map fst snd]. rewrite Gk. f_equal. apply IH; [exact K| |exact N'].
      intros q. specialize (G q). rewrite !dget_cons in G. destruct (beq_spec q k') as [Eq|_]; [subst q|exact G]. assert (Z : forall d : slots, ~ In k' (dkeys d) -> dget d k' = None) by (clear; intros d; induction d as [|[a b] d IHd]; intros H; [reflexivity|]; rewrite dget_cons; destruct (beq_spec k' a) as [->|_]; [exfalso; apply H; now left|apply IHd; intros Q; apply H; now right]).
      rewrite !Z; [reflexivity|exact N0|rewrite K; exact N0].
    Qed.

    (** what running does to the iterators *)
    Definition slot_le (s s' : slot F) : Prop := s' = s \/ exists l l', s = Iter (Items l) /\ s' = Iter (Items l') /\ length l' <= length l.
    Definition slots_le (sp sp' : slots) : Prop := Forall2 (fun p q => fst p = fst q /\ slot_le (snd p) (snd q)) sp sp'.
    Lemma slots_le_refl sp : slots_le sp sp.
    Proof. induction sp; constructor; [split; [reflexivity|now left]|assumption]. Qed.
    Lemma slots_le_trans a b c : slots_le a b -> slots_le b c -> slots_le a c.
    Proof.
      intros H. revert c. induction H as [|p q a b [K1 L1] H IH]; intros c Hc; inversion Hc as [|? r ? c' [K2 L2] Hc']; subst; constructor; [|now apply IH]. split; [congruence|].
      destruct L1 as [E0|(l & l' & E1 & E2 & Hl)]; [rewrite E0 in L2; exact L2|]. destruct L2 as [->|(m & m' & E3 & E4 & Hm)]; [right; eauto|]. rewrite E2 in E3. injection E3 as <-. right. exists l, m'. repeat split; auto. lia.
    Qed.
    Lemma get_params_le sp : slots_le sp (snd (get_synth_params sp)).
    Proof.
      induction sp as [|[k s] sp IH]; [constructor|]. cbn [get_synth_params]. destruct s as [v|l|i]; [apply slots_le_refl|apply slots_le_refl|]. destruct i as [v|[|v l]]; cbn [py_next]; [|apply slots_le_refl|].
      - destruct (get_synth_params sp) as [r sp']. constructor; [split; [reflexivity|now left]|exact IH].
      - destruct (get_synth_params sp) as [r sp']. constructor; [|exact IH]. split; [reflexivity|]. right. exists (v :: l), l. cbn. auto.
    Qed.
    Lemma run_le (W : outside F) fuel reps : forall (ls : list L) t sp algs out, slots_le sp (fst (snd (labels_loop W fuel reps t ls sp algs out))).
    Proof.
      induction ls as [|l0 ls IH]; intros t sp algs out; [apply slots_le_refl|]. cbn [labels_loop]. pose proof (get_params_le sp) as Q. destruct (get_synth_params sp) as [[ps|e] sp']; [|exact Q].
      destruct (reps_loop _ _ _ _ _ _ _) as [[r|e] algs']; [|exact Q]. exact (slots_le_trans _ _ _ Q (IH _ _ _ _)).
    Qed.
    Lemma slots_le_get sp sp' k : slots_le sp sp' -> match dget sp k, dget sp' k with Some s, Some s' => slot_le s s' | None, None => True | _, _ => False end.
    Proof. intros H. induction H as [|[k1 s1] [k2 s2] a b [K1 L1] H IH]; [exact Logic.I|]. cbn [fst snd] in *. subst k2. rewrite !dget_cons. destruct (beq k k1); [exact L1|exact IH]. Qed.
    Lemma slots_le_keys sp sp' : slots_le sp sp' -> dkeys sp' = dkeys sp.
    Proof. intros H. induction H as [|p q a b [K1 _] H IH]; [reflexivity|]. unfold dkeys in *. cbn. congruence. Qed.

    Lemma step_others (sp : slots) o : others_ok sp -> others_ok (exp_step key values labels sp o).
    Proof.
      intros H. destruct o as [|W fuel reps algs]; cbn [exp_step].
      - rewrite (construct_fresh sp H). unfold exp_construct. split.
        + rewrite init_keys, dkeys_dset. unfold dmem. now rewrite (proj2 (mem_In _ _) Has).
        + intros k N. rewrite init_get, dget_dset. destruct (beq_spec k key) as [E|_]; [contradiction|]. destruct (dget sp0 k) as [s|]; reflexivity.
      - destruct H as [Hk Ho]. pose proof (run_le W fuel reps labels 0 sp algs []) as Q. fold (exp_run W fuel reps labels sp algs) in Q. set (sp' := fst (snd (exp_run W fuel reps labels sp algs))) in *. clearbody sp'. split; [rewrite <- Hk; now apply slots_le_keys|].
        intros k N. rewrite <- (Ho k N). pose proof (slots_le_get sp sp' k Q) as G. specialize (Ho k N). destruct (dget sp k) as [s|], (dget sp' k) as [s'|]; try contradiction; [|reflexivity].
        destruct G as [->|(l & l' & -> & -> & _)]; [reflexivity|]. exfalso. destruct (dget sp0 k) as [s0|] eqn:E0; [|discriminate]. cbn in Ho. injection Ho as Ho. destruct (Const k s0 E0 N) as (v & -> & Nv). destruct v as [[z|x|v]|f]; try discriminate. now apply (Nv v).
    Qed.
    Lemma history_others h : others_ok (exp_history key values labels sp0 h).
    Proof.
      unfold exp_history. assert (G : forall h sp, others_ok sp -> others_ok (fold_left (exp_step key values labels) h sp)) by (intros h'; induction h' as [|o h' IH]; intros sp H; [exact H|]; cbn [fold_left]; apply IH; now apply step_others). apply G. split; reflexivity.
    Qed.

    (** Constructing an object resets the class: whatever was constructed and run before, a new object starts from the same parameters. *)
    Theorem C74_new_object h : exp_history key values labels sp0 (h ++ [Construct]) = exp_init (dset sp0 key (Listed values)).
    Proof. unfold exp_history. rewrite fold_left_app. cbn [fold_left exp_step]. exact (construct_fresh _ (history_others h)). Qed.

    (** But there is only one successful run, of whichever object, before the next construction. *)
    Definition items_left (sp : slots) (n : nat) : Prop := exists l, dget sp key = Some (Iter (Items l)) /\ length l <= n.
    Lemma step_items W fuel reps algs (sp : slots) n : all_iters sp -> others_ok sp -> labels <> [] -> items_left sp (S n) -> items_left (exp_step key values labels sp (RunOne W fuel reps algs)) n.
    Proof.
      intros HI [Hk Ho] NE (l & G & Hl). cbn [exp_step]. destruct labels as [|l0 ls] eqn:El; [congruence|]. unfold exp_run. cbn [labels_loop]. pose proof (get_params_ok sp HI) as Q. destruct l as [|v l].
      - assert (E0 : values_at sp 0 = None). { assert (TS : too_short sp 1) by (exists key, (Iter (Items [])), 0; auto). apply values_none_short in TS; [|now rewrite Hk]. destruct TS as ([|i] & Hi & Ei); [exact Ei|lia]. }
        rewrite E0 in Q. pose proof (get_params_le sp) as Le. destruct (get_synth_params sp) as [r sp']. cbn in Q, Le. subst r. cbn [snd fst]. pose proof (slots_le_get sp sp' key Le) as Z. rewrite G in Z. destruct (dget sp' key) as [s'|] eqn:G'; [|contradiction].
        destruct Z as [->|(a & b & E1 & -> & Hb)]; [exists []; split; [exact G'|cbn; lia]|]. injection E1 as <-. exists b. split; [exact G'|cbn in Hb; lia].
      - assert (N0 : values_at sp 0 <> None).
        { apply params_values; [now rewrite Hk|]. intros k s Gk. destruct (beq_spec k key) as [->|N]; [rewrite G in Gk; injection Gk as <-; discriminate|]. specialize (Ho k N). rewrite Gk in Ho. destruct (dget sp0 k) as [s0|] eqn:E0; [|discriminate]. cbn in Ho. injection Ho as Ho. rewrite <- init_value, Ho, init_value.
          destruct (Const k s0 E0 N) as (w & -> & Nw). destruct w as [[z|x|u]|f]; try discriminate. now destruct (Nw u). }
        destruct (values_at sp 0) as [ps|]; [|congruence]. rewrite Q. assert (Ga : dget (advanced sp) key = Some (Iter (Items l))).
        { revert G. clear. induction sp as [|[k s] sp IH]; [discriminate|]. unfold advanced. cbn [map fst snd]. rewrite !dget_cons. destruct (beq key k); [intros [= ->]; reflexivity|exact IH]. }
        assert (D : forall sp', slots_le (advanced sp) sp' -> items_left sp' n).
        { intros sp' Le. pose proof (slots_le_get _ _ key Le) as Z. rewrite Ga in Z. destruct (dget sp' key) as [s'|] eqn:G'; [|contradiction]. destruct Z as [->|(a & b & E1 & -> & Hb)]; [exists l; split; [exact G'|cbn in Hl; lia]|]. injection E1 as <-. exists b. split; [exact G'|cbn in Hl; lia]. }
        destruct (reps_loop _ _ _ _ _ _ _) as [[r|e] algs']; [|cbn [snd fst]; apply D; apply slots_le_refl]. apply D. apply run_le.
    Qed.
    Lemma step_iters (sp : slots) W fuel reps algs : all_iters sp -> all_iters (exp_step key values labels sp (RunOne W fuel reps algs)).
    Proof.
      intros HI. cbn [exp_step]. pose proof (run_le W fuel reps labels 0 sp algs []) as Q. fold (exp_run W fuel reps labels sp algs) in Q. set (sp' := fst (snd (exp_run W fuel reps labels sp algs))) in *. clearbody sp'.
      induction Q as [|[k s] [k' s'] a b [K1 L1] H IH]; [intros k s []|]. intros q u [E|Hin]; [|apply (IH (fun q u Hq => HI q u (or_intror Hq)) q u Hin)]. injection E as <- <-. cbn [fst snd] in *. destruct (HI k s (or_introl eq_refl)) as [i ->]. destruct L1 as [->|(l & l' & _ & -> & _)]; eauto.
    Qed.
    Theorem C74_one_run_per_object h runs W fuel reps algs W' fuel' reps' algs' : labels <> [] -> length values = length labels -> (forall o, In o runs -> o <> Construct) ->
      exists e, fst (exp_run W' fuel' reps' labels (exp_history key values labels sp0 (h ++ Construct :: RunOne W fuel reps algs :: runs)) algs') = Err e.
    Proof.
      intros NE Len NC. set (sp1 := exp_init (dset sp0 key (Listed values))).
      assert (E1 : exp_history key values labels sp0 (h ++ Construct :: RunOne W fuel reps algs :: runs) = fold_left (exp_step key values labels) runs (exp_step key values labels sp1 (RunOne W fuel reps algs))).
      { pose proof (C74_new_object h) as Z. unfold exp_history in *. rewrite fold_left_app in Z. cbn [fold_left] in Z. rewrite fold_left_app. cbn [fold_left]. now rewrite Z. }
      assert (O1 : others_ok sp1) by (unfold sp1; rewrite <- (C74_new_object h); apply history_others). assert (I1 : all_iters sp1) by apply init_iters.
      destruct (length labels) as [|n] eqn:Ln; [destruct labels; [congruence|discriminate]|].
      assert (L1 : items_left sp1 (S n)). { exists values. split; [|lia]. unfold sp1. rewrite init_get, dget_dset, beq_refl. reflexivity. }
      pose proof (step_items W fuel reps algs sp1 n I1 O1 NE L1) as L2. pose proof (step_iters sp1 W fuel reps algs I1) as I2. pose proof (step_others sp1 (RunOne W fuel reps algs) O1) as O2.
      rewrite E1. set (sp2 := exp_step key values labels sp1 (RunOne W fuel reps algs)) in *. clearbody sp2. clear E1.
      assert (G : forall rs sp, (forall o, In o rs -> o <> Construct) -> all_iters sp -> others_ok sp -> items_left sp n -> let sp' := fold_left (exp_step key values labels) rs sp in all_iters sp' /\ others_ok sp' /\ items_left sp' n).
      { induction rs as [|o rs IH]; intros sp Hc Hi Ho Hl; cbn [fold_left]; [auto|]. apply IH; [intros o' Ho'; apply Hc; now right| | |]; destruct o as [|W1 f1 r1 a1]; try (exfalso; now apply (Hc Construct); [left|]).
        - now apply step_iters. - now apply step_others.
        - assert (L' : items_left sp (S n)) by (destruct Hl as (l & G & Hl); exists l; auto). pose proof (step_items W1 f1 r1 a1 sp n Hi Ho NE L') as Z. exact Z. }
      destruct (G runs sp2 NC I2 O2 L2) as (I3 & O3 & L3). set (sp3 := fold_left (exp_step key values labels) runs sp2) in *. clearbody sp3.
      pose proof (labels_loop_runtime W' fuel' reps' labels 0 sp3 algs' [] I3) as Q. fold (exp_run W' fuel' reps' labels sp3 algs') in Q. destruct (fst (exp_run W' fuel' reps' labels sp3 algs')) as [o|e]; [|eauto]. exfalso.
      destruct L3 as (l & G3 & Hl). destruct O3 as [K3 _]. assert (TS : too_short sp3 (length labels)). { exists key, (Iter (Items l)), n. split; [exact G3|]. split; [lia|]. cbn. apply nth_error_None. exact Hl. }
      apply values_none_short in TS; [|now rewrite K3]. destruct TS as (i & Hi & Ei). exact (Q i Hi Ei).
    Qed.
    (** after a successful run: RuntimeError at once *)
    Theorem C74_second_run W fuel reps algs out after W' fuel' reps' algs' : labels <> [] -> NoDup labels -> NoDup (map fst algs) -> length values = length labels ->
      exp_run W fuel reps labels (exp_construct key values sp0) algs = (Ok out, after) ->
      fst (exp_run W' fuel' reps' labels (fst after) algs') = Err ERuntime.
    Proof.
      intros NE NDl NDa Len E. destruct after as [sp' al']. cbn [fst]. unfold exp_construct in E. set (sp1 := dset sp0 key (Listed values)) in *. assert (ND1 : NoDup (dkeys sp1)) by now apply dset_NoDup.
      destruct (labels_loop_ok W fuel reps algs NDa labels 0 (exp_init sp1) algs [] out sp' al' NDl) as (_ & _ & _ & I' & K' & V' & _); [intros l _ []|now rewrite init_keys|apply init_iters|apply sames_refl|exact E|].
      destruct labels as [|l0 ls]; [congruence|]. unfold exp_run. cbn [labels_loop]. assert (E0 : values_at sp' 0 = None).
      { rewrite V', exp_init_value, Nat.add_0_r. destruct (values_at sp1 (length (l0 :: ls))) as [ps|] eqn:Ep; [|reflexivity]. destruct (values_params sp1 _ ps ND1 Ep) as [_ P]. destruct (P key (Listed values)) as (v & Z & _); [unfold sp1; now rewrite dget_dset, beq_refl|]. cbn [value_at] in Z. rewrite <- Len in Z. rewrite (proj2 (nth_error_None values (length values))) in Z by lia. discriminate. }
      pose proof (get_params_ok sp' I') as Z. rewrite E0 in Z. destruct (get_synth_params sp') as [r sp2]. cbn in Z. now subst r.
    Qed.
  End Class.
End Experiments.

(** ** C75: timing_test.perform_test *)
Section TimingProps.
  Context {F : Num} {FOK : NumOK F} {C W A : Type} {EW : Eqb W}.
  Variables (label : C -> W) (timer : A -> nat -> dataset nat nat W F -> res aerr F).

  Lemma enum_firstn {B : Type} (l : list B) n : forall i, enum_from i (firstn n l) = filter (fun p => fst p <? i + n) (enum_from i l).
  Proof.
    revert n. induction l as [|x l IH]; intros [|n] i; try reflexivity.
    - cbn [firstn enum_from]. symmetry. rewrite Nat.add_0_r. assert (G : forall (l : list B) i j, i <= j -> filter (fun p => fst p <? i) (enum_from j l) = []).
      { clear. induction l as [|x l IH]; intros i j H; [reflexivity|]. cbn [enum_from filter fst]. destruct (Nat.ltb_spec j i); [lia|]. apply IH. lia. }
      apply (G (x :: l)). lia.
    - cbn [firstn enum_from filter fst]. destruct (Nat.ltb_spec i (i + S n)); [|lia]. f_equal. rewrite IH. apply filter_ext. intros p. now replace (i + S n) with (S i + n) by lia.
  Qed.
  (** a smaller data set consists of the claims of its first sources about its first variables *)
  Theorem C75_reduced (m : matrix C) (n k : Z) : (0 <= n)%Z -> (0 <= k)%Z ->
    get_triples label (reduce_to m n k) = filter (fun t => (Z.of_nat (t_src t) <? n)%Z && (Z.of_nat (t_var t) <? k)%Z) (get_triples label m).
  Proof.
    intros Hn Hk. unfold reduce_to. assert (SE : forall (B : Type) (l : list B) z, (0 <= z)%Z -> firstn (slice_end (length l) z) l = firstn (Z.to_nat z) l).
    { clear. intros B l z Hz. unfold slice_end. destruct (Z.ltb_spec z 0); [lia|]. destruct (Z.leb_spec z (Z.of_nat (length l))) as [Le|Gt]; [now rewrite Z.min_l by lia|]. rewrite Z.min_r, Nat2Z.id by lia. rewrite firstn_all. symmetry. apply firstn_all2. lia. }
    rewrite SE by exact Hn. rewrite (map_ext _ (fun row : list (option C) => firstn (Z.to_nat k) row)) by (intros row; now apply SE). clear SE.
    unfold get_triples. assert (G : forall (l : matrix C) i, flat_map (fun '(source, row) => flat_map (fun '(var, val) => match val with Some c => [(source, var, label c)] | None => [] end) (enum_from 0 row)) (enum_from i (map (firstn (Z.to_nat k)) (firstn (Z.to_nat n - i) l))) =
      filter (fun t => (Z.of_nat (t_src t) <? n)%Z && (Z.of_nat (t_var t) <? k)%Z) (flat_map (fun '(source, row) => flat_map (fun '(var, val) => match val with Some c => [(source, var, label c)] | None => [] end) (enum_from 0 row)) (enum_from i l))).
    { assert (FA : forall (B : Type) (f : B -> bool) a b, filter f (a ++ b) = filter f a ++ filter f b) by (clear; intros B f a b; induction a as [|x a IH]; [reflexivity|]; cbn; destruct (f x); cbn; now rewrite IH).
      assert (R : forall i (row : list (option C)), filter (fun t : nat * nat * W => (Z.of_nat (t_src t) <? n)%Z && (Z.of_nat (t_var t) <? k)%Z) (flat_map (fun '(var, val) => match val with Some c => [(i, var, label c)] | None => [] end) (enum_from 0 row)) =
        if i <? Z.to_nat n then flat_map (fun '(var, val) => match val with Some c => [(i, var, label c)] | None => [] end) (enum_from 0 (firstn (Z.to_nat k) row)) else []).
      { intros i row. rewrite enum_firstn. cbn [plus]. generalize (enum_from 0 row). induction l as [|[x v] l IH]; [now destruct (_ <? _)|]. cbn [flat_map]. rewrite FA, IH. cbn [filter fst]. assert (Ei : (Z.of_nat i <? n)%Z = (i <? Z.to_nat n)) by (destruct (Z.ltb_spec (Z.of_nat i) n), (Nat.ltb_spec i (Z.to_nat n)); lia || reflexivity).
        assert (Ex : (Z.of_nat x <? k)%Z = (x <? Z.to_nat k)) by (destruct (Z.ltb_spec (Z.of_nat x) k), (Nat.ltb_spec x (Z.to_nat k)); lia || reflexivity).
        destruct v as [c|].
        - cbn [filter]. change (t_src (i, x, label c)) with i. change (t_var (i, x, label c)) with x. rewrite Ei, Ex. destruct (i <? Z.to_nat n), (x <? Z.to_nat k); reflexivity.
        - cbn [filter app]. destruct (i <? Z.to_nat n); [|reflexivity]. destruct (x <? Z.to_nat k); reflexivity. }
      induction l as [|row l IH]; intros i; [now rewrite firstn_nil|]. cbn [enum_from flat_map]. rewrite FA, R. destruct (Nat.ltb_spec i (Z.to_nat n)) as [Lt|Ge].
      - replace (Z.to_nat n - i) with (S (Z.to_nat n - S i)) by lia. cbn [firstn map enum_from flat_map]. now rewrite IH.
      - replace (Z.to_nat n - i) with 0 by lia. cbn [firstn map enum_from flat_map app]. rewrite <- IH. now replace (Z.to_nat n - S i) with 0 by lia. }
    specialize (G m 0). rewrite Nat.sub_0_r in G. exact G.
  Qed.

  Lemma timing_algs_ok i d : forall algs (timings out : dict pystr (list F)), NoDup (map fst algs) -> timing_algs A timer i algs d timings = Ok out ->
    dkeys out = dkeys timings ++ filter (fun k => negb (mem k (dkeys timings))) (map fst algs) /\
    (forall al a, In (al, a) algs -> exists time, timer a i d = Ok time /\ dget out al = Some (dflt [] (dget timings al) ++ [time])) /\
    (forall al, ~ In al (map fst algs) -> dget out al = dget timings al).
  Proof.
    induction algs as [|[al a] algs IH]; intros timings out ND E; cbn [timing_algs] in E.
    - injection E as <-. cbn. rewrite app_nil_r. split; [reflexivity|]. split; [intros ? ? []|reflexivity].
    - cbn [map fst] in ND. inversion ND as [|? ? N ND']; subst. destruct (timer a i d) as [time|e] eqn:Et; [|discriminate].
      set (t1 := if dmem timings al then timings else dset timings al []) in *. assert (G1 : forall q, dflt [] (dget t1 q) = dflt [] (dget timings q)).
      { intros q. unfold t1. destruct (dmem timings al) eqn:Em; [reflexivity|]. rewrite dget_dset. destruct (beq_spec q al) as [->|_]; [|reflexivity]. unfold dmem in Em. apply mem_false in Em. destruct (dget timings al) as [v|] eqn:Eg; [|reflexivity]. exfalso. apply Em. apply dget_In in Eg. exact (in_map fst _ _ Eg). }
      assert (K1 : dkeys t1 = if dmem timings al then dkeys timings else dkeys timings ++ [al]) by (unfold t1; destruct (dmem timings al) eqn:Em; [reflexivity|]; rewrite dkeys_dset, Em; reflexivity).
      destruct (IH _ out ND' E) as (K & G & O). rewrite G1 in *. assert (M1 : dmem t1 al = true). { unfold dmem. apply mem_In. rewrite K1. unfold dmem. destruct (mem al (dkeys timings)) eqn:Em; [now apply mem_In|apply in_or_app; right; now left]. }
      split; [|split].
      + rewrite K, dkeys_dset, M1, K1. unfold dmem. cbn [map filter fst]. destruct (mem al (dkeys timings)) eqn:Em; cbn [negb]; [reflexivity|]. rewrite <- app_assoc. cbn [app]. f_equal. f_equal. apply filter_ext_in. intros k Hk. f_equal.
        assert (Nk : k <> al) by (intros ->; now apply N). apply Bool.eq_iff_eq_true. rewrite !mem_In, in_app_iff. cbn. intuition congruence.
      + intros al' a' [[= <- <-]|Hin].
        * exists time. split; [exact Et|]. rewrite O by exact N. now rewrite dget_dset, beq_refl.
        * destruct (G al' a' Hin) as (time' & H1 & H2). exists time'. split; [exact H1|]. rewrite H2, dget_dset. assert (Na : al' <> al) by (intros ->; apply N; exact (in_map fst _ _ Hin)). rewrite (beq_neq _ _ Na). now rewrite G1.
      + intros al' Hn. cbn [map fst] in Hn. assert (Na : al' <> al) by (intros ->; apply Hn; now left). rewrite O by (intros Q; apply Hn; now right). rewrite dget_dset, (beq_neq _ _ Na). unfold t1. destruct (dmem timings al); [reflexivity|]. now rewrite dget_dset, (beq_neq _ _ Na).
  Qed.
  (** perform_test returns, for every algorithm in order, one time per shape, in order: that of its run on the data set of that shape *)
  Theorem C75_timings (m : matrix C) shapes (algs : list (pystr * A)) out : NoDup (map fst algs) -> perform_test label A timer m shapes algs = Ok out ->
    dkeys out = (match shapes with [] => [] | _ => map fst algs end) /\
    forall al a, In (al, a) algs -> shapes <> [] -> exists times, dget out al = Some times /\ length times = length shapes /\
      forall i n k time, nth_error shapes i = Some (n, k) -> nth_error times i = Some time -> exists d, matrix_dataset label false None (reduce_to m n k) = Ok d /\ timer a i d = Ok time.
  Proof.
    intros ND E. unfold perform_test in E. assert (G : forall shapes i timings out, (timings = [] \/ dkeys timings = map fst algs) -> timing_loop label A timer i m shapes algs timings = Ok out ->
      dkeys out = (match shapes with [] => dkeys timings | _ => map fst algs end) /\
      forall al a, In (al, a) algs -> exists times, dget out al = (match shapes with [] => dget timings al | _ => Some (dflt [] (dget timings al) ++ times) end) /\ length times = length shapes /\
        forall r n k time, nth_error shapes r = Some (n, k) -> nth_error times r = Some time -> exists d, matrix_dataset label false None (reduce_to m n k) = Ok d /\ timer a (i + r) d = Ok time).
    { clear E out shapes. induction shapes as [|[n k] shapes IH]; intros i timings out HT E; cbn [timing_loop] in E.
      - injection E as <-. split; [reflexivity|]. intros al a _. exists []. split; [reflexivity|]. split; [reflexivity|]. intros [|r]; discriminate.
      - destruct (matrix_dataset label false None (reduce_to m n k)) as [d|e] eqn:Ed; [|discriminate]. destruct (timing_algs A timer i algs d timings) as [t1|e] eqn:Et; [|discriminate].
        destruct (timing_algs_ok i d algs timings t1 ND Et) as (K & G & _).
        assert (K' : dkeys t1 = map fst algs).
        { rewrite K. destruct HT as [->|HT]; [cbn; clear; induction (map fst algs) as [|q l IHl]; [reflexivity|cbn; now f_equal]|]. rewrite HT. assert (FN : forall (f : pystr -> bool) l, (forall q, In q l -> f q = false) -> filter f l = []) by (clear; intros f l Hl; induction l as [|q l IHl]; [reflexivity|]; cbn; rewrite (Hl q) by (now left); apply IHl; intros q' Hq'; apply Hl; now right). rewrite FN; [apply app_nil_r|]. intros q Hq. apply Bool.negb_false_iff. now apply mem_In. }
        destruct (IH (S i) t1 out (or_intror K') E) as [K2 G2]. split; [destruct shapes; [now rewrite K2|exact K2]|]. intros al a Hin. destruct (G al a Hin) as (time & H1 & H2). destruct (G2 al a Hin) as (times & H3 & H4 & H5). exists (time :: times). split; [|split; [cbn; now rewrite H4|]].
        + destruct shapes; [destruct times; [|discriminate]; now rewrite H3, H2|]. rewrite H3, H2. cbn [dflt]. now rewrite <- app_assoc.
        + intros [|r] n' k' time' Hs Ht; cbn in Hs, Ht; [injection Hs as <- <-; injection Ht as <-; exists d; rewrite Nat.add_0_r; auto|]. rewrite Nat.add_succ_r. exact (H5 r n' k' time' Hs Ht). }
    destruct (G shapes 0 [] out (or_introl eq_refl) E) as [K Q]. split; [destruct shapes; exact K|]. intros al a Hin NE. destruct (Q al a Hin) as (times & H1 & H2 & H3). exists times. destruct shapes as [|s shapes]; [congruence|]. split; [exact H1|]. split; [exact H2|]. intros i n k time Hs Ht. exact (H3 i n k time Hs Ht).
  Qed.
End TimingProps.

(** ** A concrete experiment: two domain sizes, two repetitions, voting and Sums, in IEEE doubles *)
Module ExperimentExamples.
  Import FloatExamples.
  Local Open Scope nat_scope.
  Definition half : B64 lm := lit 1 2.
  Definition three_quarters : B64 lm := lit 3 4.
  Definition draws : rng (B64 lm) := RNG (fun k => k) (fun k => if Nat.eqb (k mod 4) 0 then three_quarters else n_ofZ 0).
  Definition world : outside (B64 lm) := Outside (fun _ => draws) (fun _ _ k => k) (fun _ _ _ => n_ofZ 0).
  (** trust is a callable, num_variables and claim_probability are constants, domain_size is the independent variable *)
  Definition sp0 : dict pystr (slot (B64 lm)) :=
    [(k_trust, Plain (VCall (fun _ => Returns (DArray [half; half; half])))); (k_num_variables, Plain (VData (DInt 2)));
     (k_claim_probability, Plain (VData (DFloat half))); (k_domain_size, Plain (VData (DInt 0)))].
  Definition sizes : list (pvalue (B64 lm)) := [VData (DInt 2); VData (DInt 3)].
  Definition algorithms : list (pystr * algo (B64 lm)) := [(lit_str "Voting"%string, AVoting); (lit_str "Sums"%string, AIterative (mk_obj Sums None None))].
  Definition outcome := exp_run world 30 2 [2; 3] (exp_construct k_domain_size sizes sp0) algorithms.
  Definition digest (x : res exp_err (dict nat (dict pystr (list (B64 lm))))) : option (list (nat * list nat)) :=
    match x with Ok o => Some (map (fun p => (fst p, map (fun q => length (snd q)) (snd p))) o) | Err _ => None end.
  (** it returns, with two accuracies per algorithm for each of the two labels *)
  Example returns : digest (fst outcome) = Some [(2, [2; 2]); (3, [2; 2])].
  Proof. vm_compute. reflexivity. Qed.
  Example hypotheses : NoDup [2; 3] /\ NoDup (dkeys sp0) /\ NoDup (map fst algorithms) /\ In k_domain_size (dkeys sp0) /\ List.length sizes = List.length [2; 3] /\
    (forall k s, dget sp0 k = Some s -> k <> k_domain_size -> constant s).
  Proof.
    split; [repeat constructor; cbn; intuition discriminate|]. split; [unfold sp0, dkeys; cbn [map fst]; repeat constructor; cbn; intuition discriminate|]. split; [unfold algorithms; cbn [map fst]; repeat constructor; cbn; intuition discriminate|].
    split; [right; right; right; now left|]. split; [reflexivity|]. intros k s G N. apply dget_In in G. destruct G as [G|[G|[G|[G|[]]]]]; injection G as <- <-; try (eexists; split; [reflexivity|]; intros l; discriminate).
  Qed.
  (** a second run of the same object does not *)
  Example second : fst (exp_run world 30 2 [2; 3] (fst (snd outcome)) algorithms) = Err ERuntime.
  Proof.
    destruct hypotheses as (H1 & H2 & H3 & H4 & H5 & H6). assert (R := returns). unfold outcome in *. destruct (exp_run world 30 2 [2; 3] (exp_construct k_domain_size sizes sp0) algorithms) as [[out|e] after] eqn:E; [|discriminate].
    exact (C74_second_run k_domain_size sizes [2; 3] sp0 H2 world 30 2 algorithms out after world 30 2 algorithms ltac:(discriminate) H1 H3 H5 E).
  Qed.
  (** an array given where a constant is meant is taken as a sequence: the trust vector of the first label is then a number *)
  Example array_as_constant : value_at (Plain (VData (DArray [half; three_quarters])) : slot (B64 lm)) 1 = Some (VData (DFloat three_quarters)).
  Proof. reflexivity. Qed.
  (** the timing test on the two upper left squares of a small matrix *)
  Definition m : matrix nat := [[Some 1; None; Some 2]; [None; Some 3; Some 4]].
  Definition clock1 (a : unit) (i : nat) (d : dataset nat nat nat (B64 lm)) : res aerr (B64 lm) := match voting_run (fun k => n_ofZ (Z.of_nat (k + i))) d with Ok r => Ok (r_time r) | Err e => Err e end.
  Example timed : match perform_test (F:=B64 lm) (fun n => n) unit clock1 m [(1, 5); (2, 2)]%Z [(lit_str "v"%string, tt)] with Ok out => map (fun p => length (snd p)) out = [2] | Err _ => False end.
  Proof. vm_compute. reflexivity. Qed.
  Example reduced : get_triples (fun n => n) (reduce_to m 2 2) = [(0, 0, 1); (1, 1, 3)].
  Proof. reflexivity. Qed.
End ExperimentExamples.
