(** C77: what a ConvergenceIterator with debug=True prints; C78: the curves of the convergence experiment. *)
From Coq Require Import Reals Lra String.
From Verif Require Import Base Num Sparse Spec Dataset DatasetProofs DatasetRep Iterators Algorithms Driver Rounds PropsData PropsIter PropsRun PropsAlg PropsStop PyStr Matrix PropsMatrix ConvTest.
Local Notation length := List.length.

Section Trace.
  Context {F : Num}.
  Variables (a b : nat -> vec F) (brk : nat -> bool) (m : measure) (thr : F) (lim : Z).
  Lemma trace_line fuel j cur i n x : nth_error (it_trace a b brk fuel (IConv m thr lim j cur) j) i = Some (n, x) ->
    n = S (j + i) /\ get_distance m (a (j + i)) (b (j + i)) = Ok x /\ (forall i', j <= i' <= j + i -> brk i' = false).
  Proof.
    revert j cur i. induction fuel as [|f IH]; intros j cur i H; [destruct i; discriminate|]. cbn [it_trace finished] in H. fold (near thr cur) in H.
    destruct (near thr cur); [destruct i; discriminate|]. destruct (lim <=? Z.of_nat j)%Z; [destruct i; discriminate|].
    destruct (brk j) eqn:Bj; [destruct i; discriminate|]. cbn [compare] in H. destruct (get_distance m (a j) (b j)) as [y|e] eqn:Ed; [|destruct i; discriminate].
    cbn [debug_line app] in H. destruct i as [|i]; cbn [nth_error] in H.
    - injection H as <- <-. rewrite Nat.add_0_r. split; [reflexivity|]. split; [exact Ed|]. intros i' Hi. replace i' with j by lia. exact Bj.
    - apply IH in H. destruct H as (-> & Q & NB). replace (j + S i) with (S j + i) by lia. split; [reflexivity|]. split; [exact Q|].
      intros i' Hi. destruct (Nat.eq_dec i' j) as [->|]; [exact Bj|apply NB; lia].
  Qed.
  Lemma trace_length fuel j cur : j + length (it_trace a b brk fuel (IConv m thr lim j cur) j) = snd (fst (it_loop a b brk fuel (IConv m thr lim j cur) j)).
  Proof.
    revert j cur. induction fuel as [|f IH]; intros j cur; [cbn; lia|]. cbn [it_trace it_loop finished]. fold (near thr cur).
    destruct (near thr cur); [cbn; lia|]. destruct (lim <=? Z.of_nat j)%Z; [cbn; lia|].
    destruct (brk j) eqn:Bj; [cbn; lia|]. cbn [compare]. destruct (get_distance m (a j) (b j)) as [y|e] eqn:Ed; [|cbn; lia].
    cbn [debug_line app length]. rewrite <- IH. lia.
  Qed.
End Trace.

Section C77.
  Context {S V W : Type} {ES : Eqb S} {EV : Eqb V} {EW : Eqb W} {F : Num} {FOK : NumOK F}.
  Notation data := (dataset S V W F).
  Variables (b : bool) (impf : option (V -> W -> W -> option F)) (ts : list (S * V * W)) (d : data).
  Hypothesis Hb : build b impf ts = Ok d.
  Variables (a : alg F) (p : prior).
  Hypothesis Ha : a <> UnboundedSums.

  (** the lines printed while [alg.run(data)] runs with a ConvergenceIterator(m, thr, limit=lim, debug=True) that may have been used before *)
  Variables (m : measure) (thr : F) (lim : Z) (used : nat) (cur : option F) (lg : option (list (result S V W F))).
  Let obj := AObj a p (IConv m thr lim used cur) lg.

  (** C77. Line i is numbered i and shows how far round i moved the trust scores. *)
  Theorem C77_lines clock fuel i n x : nth_error (debug_output clock fuel obj d) i = Some (n, x) -> n = Datatypes.S i /\ moved d a p m n x.
  Proof.
    intros H. unfold obj in H. destruct (Nat.eq_dec (length ts) 0) as [Z|Z].
    { unfold debug_output in H. rewrite (rep_nc _ _ _ (build_rep _ _ _ _ Hb)) in H. destruct ts; [|discriminate]. destruct i; discriminate. }
    assert (NE : ts <> []) by (intros E; rewrite E in Z; now apply Z). clear Z.
    rewrite (debug_char clock ts impf d (build_rep _ _ _ _ Hb) NE) in H. destruct (init a p d) as [x0|] eqn:E0; [|destruct i; discriminate].
    cbn [reset] in H. apply trace_line in H. cbn [Nat.add] in H. destruct H as (-> & Ed & NB). split; [reflexivity|].
    apply (moved_intro b impf ts d Hb a p Ha x0 m i x E0 NE); [|exact Ed]. intros i' Hi'. apply NB. lia.
  Qed.
  (** A run that returns prints one line per iteration; the distances of all but the last are not below the threshold, and the last is below
      it unless the algorithm ended by itself. *)
  Theorem C77_success clock fuel r : fst (run clock fuel obj d) = Ok r ->
    let out := debug_output clock fuel obj d in
    r_iterations r = Some (length out) /\ (Z.of_nat (length out) <= Z.max 0 lim)%Z /\
    (forall l x, In (l, x) out -> l < length out -> n_ltb x thr = false) /\
    ((exists x, In (length out, x) out /\ n_ltb x thr = true) \/ ends_itself d a p (length out)).
  Proof.
    intros H out. unfold obj in H. destruct (run clock fuel (AObj a p (IConv m thr lim used cur) lg) d) as [r0 o'] eqn:Er. cbn [fst] in H. subst r0.
    pose proof (C65_stops b impf ts d Hb a p Ha clock fuel m thr lim used cur lg r o' Er) as (k & Ek & _ & Hk).
    pose proof Er as Er'. apply (run_cases b impf ts d Hb) in Er'. destruct Er' as (NE & x0 & k' & it' & E0 & El & x & Ef & ->).
    cbn [r_iterations] in Ek. injection Ek as ->. cbn [reset] in El.
    assert (Eo : out = it_trace (cmp1 a d x0) (cmp2 a d x0) (stops a d x0) fuel (IConv m thr lim 0 None) 0).
    { unfold out, obj. rewrite (debug_char clock ts impf d (build_rep _ _ _ _ Hb) NE), E0. reflexivity. }
    assert (L : length out = k). { rewrite Eo. pose proof (trace_length (cmp1 a d x0) (cmp2 a d x0) (stops a d x0) m thr lim fuel 0 None) as Q. rewrite El in Q. cbn in Q. exact Q. }
    cbn [r_iterations]. rewrite L. split; [reflexivity|].
    assert (Line : forall l y, In (l, y) out -> exists i, l = Datatypes.S i /\ i < k /\ get_distance m (cmp1 a d x0 i) (cmp2 a d x0 i) = Ok y).
    { intros l y Hin. apply In_nth_error in Hin. destruct Hin as [i Hi]. pose proof Hi as Hi'. rewrite Eo in Hi'. apply trace_line in Hi'. cbn [Nat.add] in Hi'. destruct Hi' as (-> & Q & _).
      exists i. split; [reflexivity|]. split; [|exact Q]. rewrite <- L. apply nth_error_Some. congruence. }
    pose proof (conv_loop _ _ _ _ _ _ _ _ _ _ _ El) as Cl. destruct Cl as [[Q _]|[_ [(i & -> & _ & (_ & y & Ed & Hy) & Fa)|(_ & Hl & Bk & Fa)]]]; [discriminate| |].
    - split; [|split].
      + (* the bound *)
        destruct (le_lt_dec 0 i) as [_|]; [|lia]. clear -El. assert (G : forall fu j c e, (Z.of_nat j <= Z.max 0 lim)%Z -> it_loop (cmp1 a d x0) (cmp2 a d x0) (stops a d x0) fu (IConv m thr lim j c) j = ((Ok tt, Datatypes.S i), e) -> (Z.of_nat (Datatypes.S i) <= Z.max 0 lim)%Z).
        { induction fu as [|fu IH]; intros j c e Hj H; [discriminate|]. cbn [it_loop finished] in H. destruct (match c with Some _ => _ | None => _ end); [injection H as <- _; exact Hj|].
          destruct (Z.leb_spec lim (Z.of_nat j)); [discriminate|]. destruct (stops a d x0 j); [injection H as <- _; exact Hj|]. cbn [compare] in H.
          destruct (get_distance m _ _); [|discriminate]. eapply IH; [|exact H]. lia. }
        apply (G fuel 0 None it' ltac:(lia) El).
      + intros l z Hin Hl. destruct (Line l z Hin) as (i0 & -> & Hi0 & Q). destruct (Fa i0 ltac:(lia)) as (_ & z' & Q' & Hz'). congruence.
      + left. exists y. split; [|exact Hy]. assert (Hn : exists v, nth_error out i = Some v) by (destruct (nth_error out i) eqn:Q; [eauto|apply nth_error_None in Q; lia]).
        destruct Hn as [[n z] Hn]. pose proof (nth_error_In _ _ Hn) as Hin. pose proof Hn as Hn'. rewrite Eo in Hn'. apply trace_line in Hn'. cbn [Nat.add] in Hn'. destruct Hn' as (-> & Q & _). congruence.
    - split; [lia|]. split.
      + intros l z Hin Hl'. destruct (Line l z Hin) as (i0 & -> & Hi0 & Q). destruct (Fa i0 ltac:(lia)) as (_ & z' & Q' & Hz'). congruence.
      + destruct Hk as [(K1 & y & _ & _)|(_ & _ & En)]; [|right; exact En].
        (* the loop stopped because of the break *)
        right. clear -FOK El Bk E0 Hb Hl. intros clock' fuel' n lg' r o'' Hn Hr. apply (run_cases b impf ts d Hb) in Hr. destruct Hr as (_ & x1 & k1 & it1 & E1 & El1 & y & _ & ->). cbn [r_iterations].
        rewrite E0 in E1. injection E1 as <-. cbn [reset] in El1. f_equal.
        destruct (le_lt_dec k k1) as [L|L].
        * destruct (Nat.eq_dec k k1) as [->|Nk]; [reflexivity|]. exfalso. pose proof (it_loop_nobrk (cmp1 a d x0) (cmp2 a d x0) (stops a d x0) fuel' (IFixed n 0) 0 k) as Q. rewrite El1 in Q. cbn [fst snd] in Q. rewrite Bk in Q. specialize (Q ltac:(lia)). discriminate.
        * exfalso. pose proof (it_loop_nobrk (cmp1 a d x0) (cmp2 a d x0) (stops a d x0) fuel (IConv m thr lim 0 None) 0 k1) as Q0. rewrite El in Q0. cbn [fst snd] in Q0.
          assert (G : forall fu j e, it_loop (cmp1 a d x0) (cmp2 a d x0) (stops a d x0) fu (IFixed n j) j = ((Ok tt, k1), e) -> stops a d x0 k1 = true \/ (n <= Z.of_nat k1)%Z).
          { clear. induction fu as [|fu IH]; intros j e H; [discriminate|]. cbn [it_loop finished] in H. destruct (Z.leb_spec n (Z.of_nat j)); [injection H as <- _; auto|]. destruct (stops a d x0 j) eqn:Sj; [injection H as <- _; auto|]. cbn [compare] in H. now apply IH in H. }
          apply G in El1. destruct El1 as [Q|Q]; [|lia]. rewrite Q0 in Q; [discriminate|lia].
  Qed.
  (** A run that fails to converge prints one line per permitted iteration, none below the threshold. *)
  Theorem C77_failure clock fuel : fst (run clock fuel obj d) = Err ConvergenceError ->
    let out := debug_output clock fuel obj d in
    Z.of_nat (length out) = Z.max 0 lim /\ forall l x, In (l, x) out -> n_ltb x thr = false.
  Proof.
    intros H out. unfold obj in H. destruct (Nat.eq_dec (length ts) 0) as [Z|Z].
    { exfalso. destruct ts; [|discriminate]. destruct (C26_empty b impf [] d Hb clock fuel (AObj a p (IConv m thr lim used cur) lg)) as [Q _]. destruct (Q eq_refl) as (Q1 & _). rewrite Q1 in H. discriminate. }
    assert (NE : ts <> []) by (intros E; rewrite E in Z; now apply Z). clear Z.
    assert (Eo := debug_char clock ts impf d (build_rep _ _ _ _ Hb) NE a p fuel (IConv m thr lim used cur) lg). fold obj in Eo. fold out in Eo.
    rewrite (run_char clock ts impf d (build_rep _ _ _ _ Hb) NE) in H.
    destruct (init a p d) as [x0|] eqn:E0; [|discriminate]. cbn [reset] in H, Eo. destruct (it_loop _ _ _ fuel _ 0) as [[[u|e] k] it'] eqn:El; cbn [fst] in H.
    - destruct (final a it' _) as [y|e] eqn:Ef; [discriminate|]. cbn [fst] in H. injection H as ->. exfalso. destruct a; cbn in Ef; congruence.
    - injection H as ->. pose proof (trace_length (cmp1 a d x0) (cmp2 a d x0) (stops a d x0) m thr lim fuel 0 None) as Q. rewrite El, <- Eo in Q. cbn in Q.
      assert (K : Z.of_nat k = Z.max 0 lim).
      { clear -El. assert (G : forall fu j c e, (Z.of_nat j <= Z.max 0 lim)%Z -> it_loop (cmp1 a d x0) (cmp2 a d x0) (stops a d x0) fu (IConv m thr lim j c) j = ((Err ConvergenceError, k), e) -> Z.of_nat k = Z.max 0 lim).
        { induction fu as [|fu IH]; intros j c e Hj H; [discriminate|]. cbn [it_loop finished] in H. destruct (match c with Some _ => _ | None => _ end); [discriminate|].
          destruct (Z.leb_spec lim (Z.of_nat j)); [injection H as <- _; lia|]. destruct (stops a d x0 j); [discriminate|]. cbn [compare] in H.
          destruct (get_distance m _ _) as [y|e0] eqn:Ed; [eapply IH; [|exact H]; lia|]. injection H as -> _ _. exfalso. destruct m; cbn in Ed; try discriminate; [destruct (norm_inf _); discriminate|destruct (_ || _)%bool; discriminate]. }
        apply (G fuel 0 None it' ltac:(lia) El). }
      split; [rewrite Q; exact K|]. intros l x Hin. apply In_nth_error in Hin. destruct Hin as [i Hi]. pose proof Hi as Hi'. rewrite Eo in Hi'. apply trace_line in Hi'. cbn [Nat.add] in Hi'. destruct Hi' as (-> & Ed & _).
      assert (i < k) by (rewrite <- Q; apply nth_error_Some; congruence).
      destruct (conv_loop_err _ _ _ _ _ _ _ _ _ _ _ El i ltac:(lia) ltac:(lia)) as (_ & z & Ez & Hz). congruence.
  Qed.
End C77.

(** ** The convergence experiment *)
Section Text.
  Context {F : Num}.
  Variables (show_nat : nat -> pystr) (show : F -> pystr) (float : pystr -> option F).
  (** what is assumed of str() and float() of Python: numbers contain no comma and no newline; float(str(x)) is x *)
  Definition printing : Prop :=
    (forall n c, In c (show_nat n) -> c <> comma /\ c <> newline) /\ (forall x c, In c (show x) -> c <> comma /\ c <> newline) /\ (forall x, float (show x) = Some x).
  Hypothesis P : printing.
  Lemma read_debug out : read_output float (debug_text show_nat show out) = Ok (map snd out).
  Proof.
    destruct P as (P1 & P2 & P3). unfold read_output.
    assert (Sp : split_on newline (debug_text show_nat show out) = map (fun l => show_nat (fst l) ++ comma :: show (snd l)) out ++ [[]]).
    { induction out as [|[n x] out IH]; [reflexivity|]. cbn [debug_text flat_map map app fst snd].
      change (flat_map (fun l : nat * F => show_nat (fst l) ++ comma :: show (snd l) ++ [newline]) out) with (debug_text show_nat show out).
      replace ((show_nat n ++ comma :: show x ++ [newline]) ++ debug_text show_nat show out) with ((show_nat n ++ comma :: show x) ++ newline :: debug_text show_nat show out) by (rewrite <- !app_assoc; cbn; rewrite <- app_assoc; reflexivity).
      rewrite split_on_app_sep; [rewrite IH; reflexivity|]. intros H. apply in_app_or in H. destruct H as [H|[H|H]]; [now apply P1 in H|discriminate H|now apply P2 in H]. }
    rewrite Sp, filter_app. cbn [filter]. rewrite app_nil_r. clear Sp.
    induction out as [|[n x] out IH]; [reflexivity|]. cbn [map fst snd filter].
    assert (NE : match show_nat n ++ comma :: show x with [] => false | _ => true end = true) by (destruct (show_nat n); reflexivity). rewrite NE. cbn [mapM].
    unfold read_line at 1. rewrite split_on_app_sep by (intros H; now apply P1 in H). rewrite split_on_none by (intros H; now apply P2 in H). rewrite P3. cbn [bind]. rewrite IH. reflexivity.
  Qed.
End Text.

Section C78.
  Context {C W : Type} {EW : Eqb W} {F : Num} {FOK : NumOK F}.
  Notation data := (dataset nat nat W F).
  (** the algorithms and their names, with the documented default parameters and priors *)
  Definition experiment_algorithms : list (pystr * (alg F * prior)) :=
    [(lit_str "Sums", (Sums, FIXED)); (lit_str "AverageLog", (AverageLog, FIXED)); (lit_str "Investment", (Investment (lit 12 10), VOTED));
     (lit_str "PooledInvestment", (PooledInvestment (lit 14 10), UNIFORM)); (lit_str "TruthFinder", (TruthFinder (lit 5 10) (lit 3 10) (lit 9 10), FIXED))]%string.
  (** the distances of one algorithm: entry j is the Euclidean distance between its trust scores before and after round j, for 100 rounds or until
      the algorithm ends by itself *)
  Definition curve (d : data) (a : alg F) (p : prior) (xs : list F) : Prop :=
    (forall i x, nth_error xs i = Some x -> moved d a p L2 (S i) x) /\ (length xs = 100 \/ length xs < 100 /\ ends_itself d a p (length xs)).

  Variables (label : C -> W) (parse : pystr -> option (option C)) (show_nat : nat -> pystr) (show : F -> pystr) (float : pystr -> option F).
  Hypothesis P : printing show_nat show float.
  (** square roots are not negative: holds for the reals and for doubles (see below) *)
  Hypothesis Sq : forall x : F, n_ltb (n_sqrt x) (n_ofZ 0) = false.

  Lemma l2_ok (u v : vec F) : exists x, get_distance L2 u v = Ok x /\ n_ltb x (n_ofZ 0) = false.
  Proof. cbn. eexists. split; [reflexivity|]. apply Sq. Qed.
  Lemma ct_iterator_reset (it : iterator F) : reset it = ct_iterator -> exists used cur, it = IConv L2 (n_ofZ 0) 100 used cur.
  Proof. unfold ct_iterator, mk_conv. destruct it; cbn; try discriminate. intros [= -> -> ->]. eauto. Qed.

  Section OneDataset.
    Variables (b : bool) (impf : option (nat -> W -> W -> option F)) (ts : list (nat * nat * W)) (d : data).
    Hypothesis Hb : build b impf ts = Ok d.
    Lemma run_curve clock fuel a p it : a <> UnboundedSums -> reset it = ct_iterator ->
      let o := AObj a p it None in
      (match fst (run clock fuel o d) with Ok _ => True | Err e => e = ConvergenceError end) -> curve d a p (map snd (debug_output clock fuel o d)).
    Proof.
      intros Ha Hit o Hr. apply ct_iterator_reset in Hit. destruct Hit as (used & cur & ->). subst o. split.
      - intros i x Hx. rewrite nth_error_map in Hx. destruct (nth_error (debug_output clock fuel (AObj a p (IConv L2 (n_ofZ 0) 100 used cur) None) d) i) as [[n y]|] eqn:En; [|discriminate].
        cbn in Hx. injection Hx as ->. apply (C77_lines b impf ts d Hb a p Ha L2 (n_ofZ 0) 100 used cur None) in En. destruct En as (-> & En). exact En.
      - rewrite map_length. destruct (fst (run clock fuel (AObj a p (IConv L2 (n_ofZ 0) 100 used cur) None) d)) as [r|e] eqn:Er.
        + pose proof (C77_success b impf ts d Hb a p Ha L2 (n_ofZ 0) 100 used cur None clock fuel r Er) as (_ & Le & _ & Q). cbv zeta in Le, Q.
          set (out := debug_output clock fuel (AObj a p (IConv L2 (n_ofZ 0) 100 used cur) None) d) in *.
          destruct Q as [(x & Hin & Hx)|En].
          * exfalso. apply In_nth_error in Hin. destruct Hin as [i Hi]. apply (C77_lines b impf ts d Hb a p Ha L2 (n_ofZ 0) 100 used cur None) in Hi. destruct Hi as (_ & r1 & r2 & _ & _ & Q).
            cbn [get_distance] in Q. destruct Q as [Q|Q]; injection Q as <-; unfold norm2 in Hx; rewrite Sq in Hx; discriminate.
          * destruct (Nat.eq_dec (length out) 100) as [E|NE']; [now left|right]. split; [lia|exact En].
        + subst e. pose proof (C77_failure b impf ts d Hb a p Ha L2 (n_ofZ 0) 100 used cur None clock fuel Er) as (Le & _). cbv zeta in Le. left. lia.
    Qed.
    Lemma run_outcome clock fuel a p it : a <> UnboundedSums -> p <> BadPrior -> ts <> [] -> 100 < fuel -> reset it = ct_iterator ->
      match fst (run clock fuel (AObj a p it None) d) with Ok _ => True | Err e => e = ConvergenceError end.
    Proof.
      intros Ha Hp NE Hf Hit. rewrite (run_char clock ts impf d (build_rep _ _ _ _ Hb) NE), Hit.
      assert (E0 : exists x0, init a p d = Some x0) by (destruct a, p; cbn; eauto; congruence). destruct E0 as [x0 E0]. rewrite E0.
      pose proof (it_loop_conv_bound (cmp1 a d x0) (cmp2 a d x0) (stops a d x0) L2 (n_ofZ 0) 100 fuel 0 None ltac:(lia)) as Q. change (Z.to_nat 100 - 0) with 100 in Q. specialize (Q Hf).
      assert (G : forall fu j c e k it', it_loop (cmp1 a d x0) (cmp2 a d x0) (stops a d x0) fu (IConv L2 (n_ofZ 0) 100 j c) j = ((Err e, k), it') -> e = OutOfFuel \/ e = ConvergenceError).
      { induction fu as [|fu IH]; intros j c e k it' H; [injection H as <- _; auto|]. cbn [it_loop finished] in H. destruct (match c with Some _ => _ | None => _ end); [discriminate|].
        destruct (100 <=? Z.of_nat j)%Z; [injection H as <- _; auto|]. destruct (stops a d x0 j); [discriminate|]. cbn [compare get_distance] in H. now apply IH in H. }
      change ct_iterator with (IConv L2 (n_ofZ (n:=F) 0) 100 0 None). destruct (it_loop _ _ _ fuel _ 0) as [[[u|e] k] it'] eqn:El; cbn [fst].
      - destruct (final a it' _) as [y|e] eqn:Ef; [exact Logic.I|]. exfalso. destruct a; cbn in Ef; congruence.
      - destruct (G _ _ _ _ _ _ El); [subst; now destruct Q|assumption].
    Qed.
    Definition matches (n : pystr * (alg F * prior)) (c : pystr * list F) : Prop := fst c = fst n /\ curve d (fst (snd n)) (snd (snd n)) (snd c).
    Lemma ct_loop_ok clocks fuel : forall algs j it distances out, (forall n a, In (n, a) algs -> a <> UnboundedSums) -> NoDup (map fst algs) -> (forall n, In n (map fst algs) -> ~ In n (dkeys distances)) -> reset it = ct_iterator ->
      ct_loop show_nat show float clocks fuel d j algs it distances = Ok out ->
      exists cs, out = distances ++ cs /\ Forall2 matches (map (fun q => (fst q, (snd q, default_priors (snd q)))) algs) cs.
    Proof.
      induction algs as [|[n a] algs IH]; intros j it distances out Ha ND Fr Hit H; cbn [ct_loop] in H.
      - injection H as <-. exists []. rewrite app_nil_r. split; [reflexivity|constructor].
      - unfold mk_obj in H. cbn [dflt] in H. pose proof (Ha n a (or_introl eq_refl)) as Ha0. cbn [map fst] in ND, Fr. inversion ND as [|? ? NI ND']; subst.
        pose proof (run_curve (clocks j) fuel a (default_priors a) it Ha0 Hit) as Q. cbv zeta in Q.
        pose proof (run_reset d (clocks j) fuel a (default_priors a) it it None None (ex_intro _ b (ex_intro _ impf (ex_intro _ ts Hb))) eq_refl) as (_ & _ & (_ & _ & Rs) & _).
        destruct (run (clocks j) fuel (AObj a (default_priors a) it None) d) as [r o'] eqn:Er. cbn [fst snd] in Q, Rs.
        rewrite (read_debug _ _ _ P) in H. cbn [bind] in H.
        assert (H' : match r with Ok _ => True | Err e => e = ConvergenceError end /\ ct_loop show_nat show float clocks fuel d (S j) algs (o_it o') (dset distances n (map snd (debug_output (clocks j) fuel (AObj a (default_priors a) it None) d))) = Ok out).
        { destruct r as [r|e]; [now split|]. destruct e; try discriminate. now split. }
        clear H. destruct H' as [Hr H]. specialize (Q Hr). apply IH in H; [| | | |congruence].
        + destruct H as (cs & -> & Fa). rewrite dset_new by (apply Fr; now left). rewrite <- app_assoc. eexists. split; [reflexivity|]. constructor; [split; [reflexivity|exact Q]|exact Fa].
        + intros n' a' Hin. apply (Ha n' a'). now right.
        + exact ND'.
        + intros n' Hin Hin'. rewrite dset_new in Hin' by (apply Fr; now left). unfold dkeys in Hin'. rewrite map_app in Hin'. apply in_app_or in Hin'. destruct Hin' as [Hin'|[<-|[]]]; [|contradiction].
          apply (Fr n'); [now right|exact Hin'].
    Qed.
    Lemma ct_loop_total clocks fuel : ts <> [] -> 100 < fuel -> forall algs j it distances, (forall n a, In (n, a) algs -> a <> UnboundedSums) -> reset it = ct_iterator ->
      exists out, ct_loop show_nat show float clocks fuel d j algs it distances = Ok out.
    Proof.
      intros NE Hf. induction algs as [|[n a] algs IH]; intros j it distances Ha Hit; cbn [ct_loop]; [eauto|].
      unfold mk_obj. cbn [dflt]. pose proof (Ha n a (or_introl eq_refl)) as Ha0.
      pose proof (run_outcome (clocks j) fuel a (default_priors a) it Ha0 ltac:(destruct a; discriminate) NE Hf Hit) as Q.
      pose proof (run_reset d (clocks j) fuel a (default_priors a) it it None None (ex_intro _ b (ex_intro _ impf (ex_intro _ ts Hb))) eq_refl) as (_ & _ & (_ & _ & Rs) & _).
      destruct (run (clocks j) fuel (AObj a (default_priors a) it None) d) as [r o'] eqn:Er. cbn [fst snd] in Q, Rs.
      rewrite (read_debug _ _ _ P). cbn [bind]. destruct r as [r|e]; [|subst e]; apply IH; try congruence; intros n' a' Hin; apply (Ha n' a'); now right.
    Qed.
  End OneDataset.

  Lemma ct_not_usums n a : In (n, a) (ct_algorithms (F:=F)) -> a <> UnboundedSums.
  Proof. unfold ct_algorithms, mk_investment, mk_pooled, mk_truthfinder. cbn [In]. intros H; repeat (destruct H as [H|H]; [injection H as <- <-; discriminate|]). destruct H. Qed.
  Lemma ct_names : NoDup (map fst (ct_algorithms (F:=F))).
  Proof. unfold ct_algorithms. cbn [map fst]. repeat constructor; cbn [In]; intros H; repeat (destruct H as [H|H]; [vm_compute in H; discriminate|]); exact H. Qed.

  (** C78. One column per algorithm, in order; all columns have the same length N, that of the longest curve; each is the algorithm's curve
      followed by blanks. *)
  Theorem C78_columns clocks fuel text out : convergence_test label parse show_nat show float clocks fuel text = Ok out ->
    exists tv m (d : data) N, supervised_from_csv label parse text = Ok (tv, m, d) /\
      Forall2 (fun alg col => fst col = fst alg /\ exists xs, curve d (fst (snd alg)) (snd (snd alg)) xs /\ length xs <= N /\ snd col = map Some xs ++ repeat None (N - length xs)) experiment_algorithms out /\
      exists name col, In (name, col) out /\ length col = N /\ ~ In None col.
  Proof.
    unfold convergence_test. destruct (supervised_from_csv label parse text) as [[[tv m] d]|e] eqn:El; [|discriminate]. intros H. exists tv, m, d.
    assert (Hb : build false None (get_triples label m) = Ok d).
    { unfold supervised_from_csv in El. destruct (csv_to_masked_array parse text) as [tmp|e]; [|discriminate]. cbn [lift_csv bind] in El. destruct (matrix_dataset label false None (tl tmp)) as [d'|e] eqn:Em; [|discriminate].
      cbn in El. injection El as _ <- <-. exact Em. }
    destruct (ct_loop show_nat show float clocks fuel d 0 ct_algorithms ct_iterator []) as [dist|e] eqn:Ec; [|discriminate]. cbn [bind] in H. injection H as <-.
    apply (ct_loop_ok _ _ _ _ Hb) in Ec; [|exact ct_not_usums|exact ct_names|intros n _ []|reflexivity]. destruct Ec as (cs & -> & Fa). cbn [app] in *.
    set (N := list_max (map (fun p : pystr * list F => length (snd p)) cs)). exists N. split; [reflexivity|].
    change (map (fun q : pystr * alg F => (fst q, (snd q, default_priors (snd q)))) ct_algorithms) with experiment_algorithms in Fa.
    assert (LeN : forall c, In c cs -> length (snd c) <= N).
    { intros c Hc. pose proof (proj1 (list_max_le (map (fun p : pystr * list F => length (snd p)) cs) N) (Nat.le_refl _)) as Q. rewrite Forall_forall in Q. apply Q. apply in_map_iff. eauto. }
    split.
    - unfold ct_plot. fold N. clearbody N. clear -Fa LeN. induction Fa as [|x y l l' [H1 H2] Fa IH]; [constructor|]. cbn [map]. constructor.
      + cbn [fst snd]. split; [exact H1|]. exists (snd y). split; [exact H2|]. split; [apply LeN; now left|reflexivity].
      + apply IH. intros c Hc. apply LeN. now right.
    - assert (NEc : cs <> []) by (intros ->; inversion Fa).
      assert (Ex : exists c, In c cs /\ length (snd c) = N).
      { unfold N. clear -NEc. induction cs as [|c cs IH]; [congruence|]. destruct cs as [|c' cs]; [exists c; cbn; split; [now left|lia]|].
        destruct IH as (c0 & Hc0 & E0); [discriminate|]. cbn [map list_max fold_right] in *. unfold list_max in *. cbn [map fold_right] in *.
        destruct (Nat.max_dec (length (snd c)) (Nat.max (length (snd c')) (fold_right Nat.max 0 (map (fun p : pystr * list F => length (snd p)) cs)))) as [Q|Q]; [exists c; split; [now left|lia]|exists c0; split; [now right|]; rewrite Q; exact E0]. }
      destruct Ex as (c & Hc & Ec). exists (fst c), (pad N (snd c)). split; [|split].
      + unfold ct_plot. fold N. apply in_map_iff. exists c. auto.
      + unfold pad. rewrite app_length, map_length, repeat_length. lia.
      + unfold pad. rewrite Ec, Nat.sub_diag. cbn [repeat]. rewrite app_nil_r. intros Q. apply in_map_iff in Q. destruct Q as (y & Q & _). discriminate.
  Qed.
  (** It fails only if the file is bad or holds no claim at all. *)
  Theorem C78_fails clocks fuel text : 100 < fuel ->
    match supervised_from_csv (F:=F) label parse text with
    | Err e => convergence_test label parse show_nat show float clocks fuel text = Err (CLoad e)
    | Ok (_, m, _) => ((exists i j c, cell m i j = Some c) -> exists out, convergence_test label parse show_nat show float clocks fuel text = Ok out) /\
                      ((forall i j, cell m i j = None) -> convergence_test label parse show_nat show float clocks fuel text = Err (CAlg EmptyDatasetError))
    end.
  Proof.
    intros Hf. unfold convergence_test. destruct (supervised_from_csv label parse text) as [[[tv m] d]|e] eqn:El; [|reflexivity].
    assert (Hb : build false None (get_triples label m) = Ok d).
    { unfold supervised_from_csv in El. destruct (csv_to_masked_array parse text) as [tmp|e]; [|discriminate]. cbn [lift_csv bind] in El. destruct (matrix_dataset label false None (tl tmp)) as [d'|e] eqn:Em; [|discriminate].
      cbn in El. injection El as _ <- <-. exact Em. }
    split.
    - intros (i & j & c & Hc). destruct (ct_loop_total _ _ _ _ Hb clocks fuel) with (algs := ct_algorithms (F:=F)) (j := 0) (it := ct_iterator (F:=F)) (distances := @nil (pystr * list F)) as [out Ho]; [|exact Hf|exact ct_not_usums|reflexivity|].
      + intros E. assert (Q : In (i, j, label c) (get_triples label m)) by (apply get_triples_In, holds_true; eauto). rewrite E in Q. destruct Q.
      + rewrite Ho. cbn [bind]. eauto.
    - intros Hn. assert (E : get_triples label m = []).
      { destruct (get_triples label m) as [|[[i j] w] l] eqn:E; [reflexivity|]. assert (Q : In (i, j, w) (get_triples label m)) by (rewrite E; now left). apply get_triples_In, holds_true in Q. destruct Q as (c & Q & _). now rewrite Hn in Q. }
      rewrite E in Hb. unfold ct_algorithms. cbn [ct_loop]. unfold mk_obj. destruct (C26_empty _ _ _ _ Hb (clocks 0) fuel (AObj Sums (dflt (default_priors (F:=F) Sums) None) (dflt (default_iterator (F:=F) Sums) (Some (ct_iterator (F:=F)))) None)) as [Q _].
      destruct (Q eq_refl) as (Q1 & _). rewrite Q1. reflexivity.
  Qed.
End C78.


(** ** The hypothesis on square roots holds for the reals and for doubles *)
From Flocq Require Import Core IEEE754.BinarySingleNaN.
From Verif Require Import Float PropsFloat.
Lemma sqrt_reals (x : XR) : n_ltb (n_sqrt x) (n_ofZ 0) = false.
Proof.
  destruct x as [r| | |]; [|reflexivity..]. change (xltb (if rltb r 0 then NaN else Fin (sqrt r)) (Fin 0) = false).
  destruct (rltb r 0); [reflexivity|]. apply rltb_false. apply sqrt_pos.
Qed.
Lemma sqrt_doubles (L : libm) (x : B64 L) : n_ltb (n_sqrt x) (n_ofZ 0) = false.
Proof.
  destruct x as [sg|sg| |sg mx ex Hx]; [destruct sg; reflexivity|destruct sg; reflexivity|reflexivity|]. destruct sg; [reflexivity|].
  change (@Bltb 53 1024 (Bsqrt mode_NE (B754_finite false mx ex Hx)) (ofZ64 0) = false).
  pose proof (Bsqrt_correct 53 1024 prec53 lt53 mode_NE (B754_finite false mx ex Hx)) as (Q1 & Q2 & _).
  rewrite Bltb_correct by (try exact Q2; reflexivity). rewrite Q1. change (B2R64 (ofZ64 0)) with 0%R. apply Rlt_bool_false.
  apply round_ge_generic; [exact vexp|apply valid_rnd_N|apply generic_format_0|apply sqrt_pos].
Qed.

(** ** Non-vacuity *)
Module DebugExamples.
  Import FloatExamples.
  (** Sums on a small dataset: with a threshold of 0.01 the run returns and prints as many lines as it makes iterations; with a threshold of 0
      and a limit of 5 it fails and prints five lines *)
  Definition attempt thr lim : option (option nat * list nat) := match build (F:=B64 lm) false None ts with Err _ => None | Ok d =>
    let o := AObj Sums FIXED (IConv L_INF thr lim 7 None) None in
    Some (match fst (run (F:=B64 lm) (fun _ => ofZ64 0) 200 o d) with Ok r => r_iterations r | Err _ => None end, map fst (debug_output (F:=B64 lm) (fun _ => ofZ64 0) 200 o d)) end.
  Example prints : match attempt (lit (F:=B64 lm) 1 100) 100 with Some (Some k, l) => (2 <=? k) = true /\ l = seq 1 k | _ => False end.
  Proof. vm_compute. split; reflexivity. Qed.
  Example fails : attempt (ofZ64 0) 5 = Some (None, [1; 2; 3; 4; 5]).
  Proof. vm_compute. reflexivity. Qed.

  (** functions str and float with the properties assumed: a double is written as one to four large characters *)
  Definition zz (z : Z) : N := match z with Z0 => 0 | Zpos p => 2 * Npos p | Zneg p => 2 * Npos p + 1 end%N.
  Definition unzz (n : N) : Z := if N.odd n then Z.opp (Z.of_N (N.div2 n)) else Z.of_N (N.div2 n).
  Lemma unzz_zz z : unzz (zz z) = z.
  Proof. destruct z as [|q|q]; [reflexivity| |]; unfold unzz, zz; destruct q; reflexivity. Qed.
  Definition bit (b : bool) : N := if b then 1001%N else 1000%N.
  Definition show (x : b64) : pystr :=
    match B2SF x with
    | SpecFloat.S754_zero s => [1000%N; bit s] | SpecFloat.S754_infinity s => [1001%N; bit s] | SpecFloat.S754_nan => [1002%N]
    | SpecFloat.S754_finite s mx ex => [1003%N; bit s; (1000 + Npos mx)%N; (1000 + zz ex)%N]
    end.
  Definition unbit (n : N) : bool := N.eqb n 1001.
  Definition to_sf (x : SpecFloat.spec_float) : option b64 :=
    match Bool.bool_dec (SpecFloat.valid_binary 53 1024 x) true with Coq.Init.Specif.left H => Some (SF2B x H) | Coq.Init.Specif.right _ => None end.
  Definition float (s : pystr) : option b64 :=
    match s with
    | [k; s] => if N.eqb k 1000 then to_sf (SpecFloat.S754_zero (unbit s)) else to_sf (SpecFloat.S754_infinity (unbit s))
    | [_] => to_sf SpecFloat.S754_nan
    | [_; s; mx; ex] => match (mx - 1000)%N with Npos q => to_sf (SpecFloat.S754_finite (unbit s) q (unzz (ex - 1000))) | _ => None end
    | _ => None
    end.
  Lemma to_sf_B2SF (x : b64) : to_sf (B2SF x) = Some x.
  Proof. unfold to_sf. destruct (Bool.bool_dec _ true) as [H|H]; [now rewrite SF2B_B2SF|]. exfalso. apply H. apply valid_binary_B2SF. Qed.
  Lemma unbit_bit s : unbit (bit s) = s. Proof. now destruct s. Qed.
  Lemma float_show x : float (show x) = Some x.
  Proof.
    unfold show. rewrite <- (to_sf_B2SF x). destruct (B2SF x) as [s|s| |s mx ex]; cbn [float].
    - now rewrite unbit_bit.
    - now rewrite unbit_bit.
    - reflexivity.
    - replace (1000 + N.pos mx - 1000)%N with (N.pos mx) by lia. replace (1000 + zz ex - 1000)%N with (zz ex) by lia. now rewrite unbit_bit, unzz_zz.
  Qed.
  Definition show_nat (n : nat) : pystr := [(1000 + N.of_nat n)%N].
  Example python : printing (F:=B64 lm) show_nat show float.
  Proof.
    split; [|split].
    - intros n c [<-|[]]. unfold comma, newline. lia.
    - intros x c Hc. assert (1000 <= c)%N; [|unfold comma, newline; lia]. unfold show in Hc. destruct (B2SF x) as [s|s| |s mx ex]; cbn [In] in Hc; unfold bit in Hc; intuition (subst; try destruct s; lia).
    - exact float_show.
  Qed.
  (** the file "1,2 / 1,2 / 1,3 / ,2" (first row: true values): five columns of 100 numbers *)
  Definition parse (s : pystr) : option (option N) := match s with [c] => Some (Some c) | _ => None end.
  Definition file : pystr := lit_str "1,2" ++ [newline] ++ lit_str "1,2" ++ [newline] ++ lit_str "1,3" ++ [newline] ++ lit_str ",2".
  Example columns : match convergence_test (F:=B64 lm) (fun c : N => c) parse show_nat show float (fun _ _ => ofZ64 0) 101 file with
    | Ok out => map (fun c => length (snd c)) out = [100; 100; 100; 100; 100] | Err _ => False end.
  Proof. vm_compute. reflexivity. Qed.
End DebugExamples.
