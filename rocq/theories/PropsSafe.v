(** Scores of sensible runs, in exact arithmetic: never negative, infinite or NaN, in results and in partial results; and hence
    requests to the /run/ page (C48) that never end in an unhandled exception, and some that do. *)
From Coq Require Import NArith String Sorted Reals Lra.
From Verif Require Import Base Num Sparse Spec SpecAlg Dataset DatasetProofs DatasetRep Iterators Algorithms Driver Distance Ranking Rounds
  AlgRep AlgRounds AlgTF PropsData PropsIter PropsRun PropsAlg AlgPack PropsOrd Results PropsResult PyStr Regex Matrix Supervised Client PropsClient
  Graph GraphRep PropsOutput PropsMatrix PropsGraph PropsColour Front FrontRep PropsCli PropsWeb.
Local Open Scope R_scope.

Section Nonneg.
  Context {S V W : Type} {ES : Eqb S} {EV : Eqb V} {EW : Eqb W}.
  Notation data := (dataset S V W XR).
  Notation claim := (V * W)%type.
  Notation rscores := (@rscores S V W).
  Notation result := (Algorithms.result S V W XR).
  Definition nonneg (ts : list (S * V * W)) (x : rscores) : Prop :=
    (forall s, In s (sources ts) -> 0 <= fst x s) /\ (forall c, In c (claims ts) -> 0 <= snd x c).
  (** TruthFinder's initial trust is not negative *)
  Definition start_ok (a : alg XR) : Prop := match a with TruthFinder _ _ (Fin t0) => 0 <= t0 | _ => True end.
  (** every source and every claim has a score in the result, a non-negative real number *)
  Definition nonnegative_scores (ts : list (S * V * W)) (r : result) : Prop :=
    (forall s, In s (sources ts) -> exists q, trust_of r s = Some (Fin q) /\ 0 <= q) /\
    (forall c, In c (claims ts) -> exists q, belief_of r c = Some (Fin q) /\ 0 <= q).

  Variables (b : bool) (f : option (V -> W -> W -> option R)) (ts : list (S * V * W)) (d : data).
  Hypothesis Hb : build b (real_imp f) ts = Ok d.
  Let R0 : ds_rep ts (real_imp f) d := build_rep _ _ _ _ Hb.

  Lemma start_nonneg a p x0 : params_ok a -> start_ok a -> start ts a p = Some x0 -> nonneg ts x0.
  Proof.
    intros Hp Hs E. destruct a as [| |[] |[] |[] [] []|[]|]; cbn in Hp; try contradiction; cbn in E; cbn [start_ok] in Hs;
      try (destruct (prior_spec ts p) as [bel|] eqn:Ep; [|discriminate]; injection E as <-; pose proof (prior_pos ts p bel Ep) as P;
           split; cbn [fst snd]; intros; [lra|left; now apply P]).
    - injection E as <-. split; cbn [fst snd]; intros; lra.
    - injection E as <-. split; cbn [fst snd]; intros; [lra|]. unfold n_supporters. apply Rmult_le_pos; [apply pos_INR|].
      destruct (sources ts) as [|s0 l]; [change (length (@nil S)) with 0%nat; change (INR 0) with 0; rewrite Rinv_0; lra|]. left. apply Rinv_0_lt_compat. apply (len_pos (s0 :: l) s0). now left.
  Qed.
  Lemma downscale_nonneg {A} (l : list A) g x : 0 <= g x -> 0 <= downscale l g x.
  Proof. intros H. unfold downscale. destruct (rltb _ _); lra. Qed.
  Lemma step_nonneg a x : ts <> [] -> params_ok a -> data_ok ts a -> good ts a x -> nonneg ts x -> nonneg ts (step_of f ts a x).
  Proof.
    intros NE Hp Hd Hg [N1 N2]. destruct a as [| |[] |[] |[] [] []|[]|]; cbn in Hp; try contradiction; cbn [good data_ok step_of] in *.
    - destruct (sums_round ts (real_imp f) d R0 NE x Hg) as [_ [P1 P2]]. split; intros; left; auto.
    - destruct (avlog_round ts (real_imp f) d R0 NE x Hd Hg) as (_ & [P2 _] & M & _). split; [|exact P2]. intros s Hs.
      apply (by_max_nonneg (sources ts) (avlog_trust ts (snd x)) s); [intros; apply avlog_trust_nonneg; auto; apply Hg|exact M|exact Hs].
    - destruct (inv_round ts (real_imp f) d R0 NE r x Hg) as [_ [P1 P2]]. split; intros; left; auto.
    - destruct (pooled_round ts (real_imp f) d R0 NE r x Hg) as [_ [P1 P2]]. split; intros; left; auto.
    - destruct (tf_step_range ts f r r0 x) as [P1 P2]. split; intros y Hy; left; [apply P2; exact Hy|apply P1].
    - split; intros y Hy.
      + pose proof (crh_trust_ge ts r x y Hp Hy). lra.
      + cbn [snd crh_step]. change (fun s => r - ln ((r + crh_loss_spec ts (snd x) s) / rsum (fun s0 => r + crh_loss_spec ts (snd x) s0) (sources ts))) with (fst (crh_step ts r x)).
        pose proof (crh_total_pos ts NE r x Hp) as T. apply Rmult_le_pos; [|left; now apply Rinv_0_lt_compat].
        unfold total_trust. apply rsum_nonneg. intros s Hs. pose proof (crh_trust_ge ts r x s Hp (supporters_sources ts s y Hs)). lra.
    - assert (Q : forall s, 0 <= total_belief ts (snd x) s) by (intros s; apply rsum_nonneg; intros c Hc; apply N2; exact (claims_of_claims ts s c Hc)).
      split; intros y Hy; cbn [fst snd usums_step]; apply downscale_nonneg; [apply Q|]. unfold total_trust. apply rsum_nonneg. intros s Hs. apply Q.
  Qed.
  Lemma rounds_nonneg a x0 k : ts <> [] -> params_ok a -> data_ok ts a -> good ts a x0 -> nonneg ts x0 -> nonneg ts (rounds (step_of f ts a) x0 k).
  Proof.
    intros NE Hp Hd Hg N. induction k as [|k IH]; [exact N|]. cbn [rounds]. apply step_nonneg; auto. apply (pack_scores b f ts d Hb NE a x0 Hp Hd Hg k).
  Qed.
  Lemma denoted_nonneg (r : result) x : reports_real ts r x -> nonneg ts x -> nonnegative_scores ts r.
  Proof.
    intros Rp [N1 N2]. split; intros y Hy.
    - exists (fst x y). split; [exact (reports_trust ts r x y Rp Hy)|auto].
    - exists (snd x y). split; [exact (reports_belief ts r x y Rp Hy)|auto].
  Qed.
  (** Every score that such a run reports, at the end or on the way, is a non-negative real number. *)
  Theorem C58_nonnegative_scores clock fuel a p it lg : params_ok a -> start_ok a -> data_ok ts a ->
    (forall r, fst (run clock fuel (AObj a p it lg) d) = Ok r -> nonnegative_scores ts r) /\
    (forall rs, fst (run_iter clock fuel (AObj a p it lg) d) = Ok rs -> Forall (nonnegative_scores ts) rs).
  Proof.
    intros Hp Hs Hd. destruct ts as [|t0 tr] eqn:Ets.
    { pose proof (C26_empty b (real_imp f) [] d Hb clock fuel (AObj a p it lg)) as [Q _]. destruct (Q eq_refl) as (-> & -> & _). split; intros; discriminate. }
    rewrite <- Ets in *. assert (NE : ts <> []) by (rewrite Ets; discriminate). clear Ets t0 tr.
    rewrite (run_char clock ts (real_imp f) d R0 NE), (run_iter_char clock ts (real_imp f) d R0 NE), (pack_start b f ts d Hb NE a p Hp).
    destruct (start ts a p) as [x0|] eqn:E0; cbn [option_map]; [|split; intros; discriminate].
    pose proof (pack_start_good ts a p x0 Hp E0) as G0. pose proof (start_nonneg a p x0 Hp Hs E0) as N0.
    assert (Sc : forall j, scores a d (denote ts x0) j = denote ts (rounds (step_of f ts a) x0 j)) by (intros j; apply (pack_scores b f ts d Hb NE a x0 Hp Hd G0 j)).
    assert (Nj : forall j, nonneg ts (rounds (step_of f ts a) x0 j)) by (intros j; now apply rounds_nonneg).
    pose proof (it_loop_reset (cmp1 a d (denote ts x0)) (cmp2 a d (denote ts x0)) (stops a d (denote ts x0)) fuel (reset it) 0) as Lr.
    destruct (it_loop _ _ _ fuel (reset it) 0) as [[q k] it']. destruct q as [u|e]; cbn [fst snd] in *; [|split; intros; discriminate]. split.
    - intros r. rewrite Sc. destruct (final a it' (denote ts (rounds (step_of f ts a) x0 k))) as [x|e] eqn:Ef; [|discriminate]. cbn [fst]. intros [= <-].
      assert (Fx : exists y, x = denote ts y /\ nonneg ts y).
      { destruct a; try (cbn [final] in Ef; injection Ef as <-; eexists; split; [reflexivity|apply Nj]).
        destruct it' as [| |t n c]; try discriminate Ef. pose proof (eq_trans (eq_sym (denote_ranks ts _ t n c)) Ef) as E. injection E as <-. eexists. split; [reflexivity|]. split; intros; apply pos_INR. }
      destruct Fx as (y & -> & Ny). apply (denoted_nonneg _ y); [apply reports_denote; reflexivity|exact Ny].
    - intros rs. destruct (final a it' _) as [x|e]; [|discriminate]. cbn [fst]. intros [= <-].
      assert (Pj : forall n j, nonnegative_scores ts (partial_result clock ts d a (denote ts x0) n j)).
      { intros n j. apply (denoted_nonneg _ (rounds (step_of f ts a) x0 j)); [|apply Nj]. apply reports_denote; unfold partial_result; cbn [r_trust r_belief]; now rewrite Sc. }
      unfold Rounds.partial_results, initial_log. apply Forall_app. split; [destruct (logs_initial a); [constructor; [apply Pj|constructor]|constructor]|]. apply Forall_forall. intros r Hr. apply in_map_iff in Hr. destruct Hr as (j & <- & _). apply Pj.
  Qed.
  (** with an ordinal iterator the rankings are always defined *)
  Lemma ordinal_no_keyerror a x0 fuel : ts <> [] -> params_ok a -> data_ok ts a -> good ts a x0 -> forall t n c k,
    fst (fst (it_loop (cmp1 a d (denote ts x0)) (cmp2 a d (denote ts x0)) (stops a d (denote ts x0)) fuel (IOrd t n c) k)) <> Err KeyErr.
  Proof.
    intros NE Hp Hd Hg. induction fuel as [|m IH]; intros t n c k; cbn [it_loop]; [discriminate|]. cbn [finished]. destruct (t <=? Z.of_nat c)%Z; [discriminate|].
    destruct (stops _ _ _ k); [discriminate|]. destruct (pack_cmp b f ts d Hb NE a x0 Hp Hd Hg k) as (E1 & E2 & _). rewrite E1, E2. cbn [compare]. unfold tvec.
    rewrite !ranking_fv. apply IH.
  Qed.
  Theorem C40_no_keyerror clock fuel p t n c lg : fst (run clock fuel (AObj UnboundedSums p (IOrd t n c) lg) d) <> Err KeyErr.
  Proof.
    destruct ts as [|t0 tr] eqn:Ets.
    { pose proof (C26_empty b (real_imp f) [] d Hb clock fuel (AObj UnboundedSums p (IOrd t n c) lg)) as [Q _]; destruct (Q eq_refl) as (-> & _). discriminate. }
    rewrite <- Ets in *. assert (NE : ts <> []) by (rewrite Ets; discriminate). clear Ets t0 tr.
    rewrite (run_char clock ts (real_imp f) d R0 NE), (pack_start b f ts d Hb NE UnboundedSums p I). destruct (start ts UnboundedSums p) as [x0|] eqn:E0; cbn [option_map]; [|discriminate].
    pose proof (ordinal_no_keyerror UnboundedSums x0 fuel NE I I I t 0%nat 0%nat 0%nat) as K. cbn [reset].
    pose proof (it_loop_reset (cmp1 UnboundedSums d (denote ts x0)) (cmp2 UnboundedSums d (denote ts x0)) (stops UnboundedSums d (denote ts x0)) fuel (IOrd t 0 0) 0) as Lr.
    destruct (it_loop _ _ _ fuel (IOrd t 0 0) 0) as [[q k] it']. cbn [fst snd reset] in *. destruct q as [u|e]; [|cbn [fst]; intros [= ->]; now apply K].
    destruct it' as [| |t' n' c']; try discriminate Lr. rewrite (proj1 (pack_scores b f ts d Hb NE UnboundedSums x0 I I I k)).
    destruct (final UnboundedSums (IOrd t' n' c') (denote ts (rounds (step_of f ts UnboundedSums) x0 k))) as [x|e] eqn:Ef; [discriminate|]. exfalso. pose proof (eq_trans (eq_sym (denote_ranks ts _ t' n' c')) Ef) as E. discriminate.
  Qed.
End Nonneg.


(** ** C48: requests that never end in an unhandled exception *)
Section Safe.
  Context {C W : Type} {EW : Eqb W}.
  Variable parse : pystr -> option (option C).
  Variable label : C -> W.
  Variable pfloat : pystr -> option XR.
  Variable decimal : pychar -> option N.
  Hypothesis DEC : decimal_ok decimal.
  Variable ord : list pystr -> list pystr.
  Hypothesis Ord : forall l, Permutation l (ord l).
  Variable ltw : W -> W -> bool.
  Variable rnd : nat -> nat.
  Hypothesis irrefl : forall x : XR, n_ltb x x = false.
  Variable T : trig XR.
  Variable show_nat : nat -> pystr.
  Variable show_w : W -> pystr.
  Variable loads : pystr -> option (jval (F:=XR)).
  Variable oset : list pystr -> list pystr.
  Hypothesis Oset : forall l, Permutation (oset l) l.
  Hypothesis show_nat_inj : forall a b, show_nat a = show_nat b -> a = b.
  Hypothesis show_w_inj : forall a b, show_w a = show_w b -> a = b.
  Notation params := (dict pystr (pvalue XR)).
  Notation data := (dataset nat nat W XR).
  Notation result := (Algorithms.result nat nat W XR).
  Notation web_run := (web_run parse label pfloat decimal ord ltw rnd T show_nat show_w loads oset).
  Notation refuses := (refuses show_nat show_w loads).
  Notation entry_for := (entry_for ltw rnd T show_nat show_w loads).

  (** parameter values that are real numbers, with a positive "eps" and an "initial_trust" from 0 up to, but not including, 1 *)
  Definition sensible (ps : params) : Prop := forall name x, dget ps name = Some (PFloat x) ->
    exists q, x = Fin q /\ (name = lit_str "eps" -> 0 < q) /\ (name = lit_str "initial_trust" -> 0 <= q < 1).
  (** a previous result with numbers where numbers are expected *)
  Definition numbers_throughout (obj : list (pystr * jval (F:=XR))) : Prop := forall t b u it, has_fields obj t b u it ->
    numeric u /\ (it = JvNull \/ numeric it) /\ (exists to, t = JvObj to /\ forall k j, dget to k = Some j -> numeric j) /\
    (exists bo, b = JvObj bo /\ forall k j, dget bo k = Some j -> exists mo, j = JvObj mo /\ forall k' j', dget mo k' = Some j' -> numeric j').
  Definition previous_sound (previous : option pystr) : Prop :=
    match previous with
    | None => True
    | Some s => match loads s with None => True | Some (JvObj obj) => numbers_throughout obj | Some _ => False end
    end.
  (** a request in which the parameters are sensible, "usums" is asked for only without an iterator, and "average_log" only if some
      source makes two claims *)
  Definition safe (labels : list pystr) (ps : params) (ts : list (nat * nat * W)) : Prop :=
    sensible ps /\ (In (lit_str "usums") labels -> iterator_cell ps = None) /\
    (In (lit_str "average_log") labels -> exists s, In s (sources ts) /\ (2 <= List.length (claims_of ts s))%nat).

  Lemma xlit_fin n k : (lit n (Z.pos k) : XR) = Fin (IZR n / IZR (Z.pos k)).
  Proof. unfold lit, n_ofZ, n_div. cbn [XR num]. cbn. rewrite reqb_false; [reflexivity|]. apply not_0_IZR. discriminate. Qed.
  Lemma sensible_float ps name n k : sensible ps -> exists q, float_given ps (lit_str name) (lit n (Z.pos k) : XR) = Fin q /\
    ((lit_str name = lit_str "eps" -> 0 < IZR n / IZR (Z.pos k)) -> lit_str name = lit_str "eps" -> 0 < q) /\
    ((lit_str name = lit_str "initial_trust" -> 0 <= IZR n / IZR (Z.pos k) < 1) -> lit_str name = lit_str "initial_trust" -> 0 <= q < 1).
  Proof.
    intros Sn. unfold float_given. destruct (dget ps (lit_str name)) as [[| |x]|] eqn:E; try (rewrite xlit_fin; eexists; split; [reflexivity|split; auto]).
    destruct (Sn _ _ E) as (q & -> & H1 & H2). exists q. auto.
  Qed.
  Lemma requested_alg c (ps : params) (o : aobj nat nat W XR) : requested c ps = Some (OIterative o) -> o_alg o =
    match c with
    | CAverageLog => AverageLog
    | CInvestment => Investment (float_given ps (lit_str "g") (lit 12 10))
    | CPooledInvestment => PooledInvestment (float_given ps (lit_str "g") (lit 14 10))
    | CUnboundedSums => UnboundedSums
    | CTruthFinder => TruthFinder (float_given ps (lit_str "influence_param") (lit 5 10)) (float_given ps (lit_str "dampening_factor") (lit 3 10)) (float_given ps (lit_str "initial_trust") (lit 9 10))
    | CCRH => CRH (float_given ps (lit_str "eps") (lit 1 100000))
    | _ => Sums
    end.
  Proof. destruct c; try discriminate; intros [= <-]; reflexivity. Qed.
  Lemma requested_ok c ps ts l labels (o : aobj nat nat W XR) : safe labels ps ts -> In l labels -> In (l, c) label_table -> requested c ps = Some (OIterative o) ->
    params_ok (o_alg o) /\ start_ok (o_alg o) /\ data_ok ts (o_alg o).
  Proof.
    intros (Sn & _ & Sa) Hl Tl Ho.
    assert (Av : c = CAverageLog -> l = lit_str "average_log") by (intros ->; cbn [label_table In] in Tl; repeat destruct Tl as [Tl|Tl]; try discriminate Tl; try contradiction; injection Tl as <-; reflexivity).
    rewrite (requested_alg c ps o Ho). destruct c; try discriminate Ho; try (split; [|split]; exact I).
    - split; [exact I|]. split; [exact I|]. cbn [data_ok]. apply Sa. rewrite <- (Av eq_refl). exact Hl.
    - destruct (sensible_float ps "g" 12 10 Sn) as (q & -> & _). split; [|split]; exact I.
    - destruct (sensible_float ps "g" 14 10 Sn) as (q & -> & _). split; [|split]; exact I.
    - destruct (sensible_float ps "influence_param" 5 10 Sn) as (q & -> & _). destruct (sensible_float ps "dampening_factor" 3 10 Sn) as (q' & -> & _).
      destruct (sensible_float ps "initial_trust" 9 10 Sn) as (q'' & -> & _ & H). cbn [params_ok start_ok data_ok]. specialize (H ltac:(intros; lra) eq_refl). repeat split; lra.
    - destruct (sensible_float ps "eps" 1 100000 Sn) as (q & -> & H & _). cbn [params_ok start_ok data_ok]. specialize (H ltac:(intros; lra) eq_refl). repeat split; lra.
  Qed.
  Lemma nonnegative_coloured ts (r : result) e : nonnegative_scores ts r -> ~ uncoloured ts r e.
  Proof.
    intros [N1 N2] (x & Ex & [(s & Hs & Es)|(v & w & m & Hc & Em & Ew)]).
    - destruct (N1 s Hs) as (q & Eq & Hq). unfold trust_of in Eq. assert (x = Fin q) by congruence. subst x. destruct (C52_graded q Hq) as (k & c & E & _). congruence.
    - destruct (N2 (v, w) Hc) as (q & Eq & Hq). unfold belief_of in Eq. cbn [fst snd] in Eq. rewrite Em in Eq. assert (x = Fin q) by congruence. subst x. destruct (C52_graded q Hq) as (k & c & E & _). congruence.
  Qed.
  Lemma sound_comparable previous s obj t b u it (r : result) : previous_sound previous -> previous = Some s -> loads s = Some (JvObj obj) -> has_fields obj t b u it -> comparable show_nat show_w t b u it r.
  Proof.
    intros Pv -> El Hf. unfold previous_sound in Pv. rewrite El in Pv. destruct (Pv t b u it Hf) as (H1 & H2 & (to & -> & H3) & (bo & -> & H4)). split; [exact H1|]. split; [exists to; split; [reflexivity|]; intros; eauto|]. split.
    - exists bo. split; [reflexivity|]. intros x m j _ Ej. destruct (H4 _ _ Ej) as (mo & -> & H5). exists mo. split; [reflexivity|]. intros; eauto.
    - tauto.
  Qed.
  Lemma safe_refuses clocks fuel ts (d : data) ps previous labels i l q : build false None ts = Ok d -> safe labels ps ts -> previous_sound previous -> In l labels ->
    refuses clocks fuel ts d ps previous i l q -> match q with Escaped _ => False | NoResponse => (Z.of_nat fuel <= 1000000)%Z \/ In (lit_str "usums") labels | _ => True end.
  Proof.
    intros Hb Sf Pv Hl H. change (build false (real_imp None) ts = Ok d) in Hb.
    assert (Us : In (l, CUnboundedSums) label_table -> l = lit_str "usums") by (intros Tl; cbn [label_table In] in Tl; repeat destruct Tl as [Tl|Tl]; try discriminate Tl; try contradiction; injection Tl as <-; reflexivity).
    destruct H as [|c|c|c Tl Al Hf|e Tl Al He|c r e Tl Al U|c r s|c r s obj name|c r s j Tl Al Ep El Nj|c r s obj t b u it Tl Al Ep El Hf Nc]; try exact I.
    - destruct Hf as [Hf|[-> Hi]]; [now left|]. right. rewrite <- (Us Tl). exact Hl.
    - assert (Hi : iterator_cell ps = None) by (apply (proj1 (proj2 Sf)); rewrite <- (Us Tl); exact Hl). destruct He as [[_ He]|[-> _]]; [congruence|]. destruct Al as (o & Eo & Er). cbn [requested] in Eo. injection Eo as <-.
      assert (Ei : iterator_given ps (IOrd 20 0 0) = IOrd 20 0 0) by (unfold iterator_given; unfold iterator_cell in Hi; destruct (dget ps (lit_str "iterator")) as [[| |]|]; try reflexivity; discriminate).
      rewrite Ei in Er. cbn [crun] in Er. destruct (run (clocks (2 * i)%nat) fuel _ d) as [r0 o'] eqn:E0. cbn [fst] in Er. apply (f_equal fst) in E0. cbn [fst] in E0. rewrite <- Er in E0.
      exact (C40_no_keyerror false None ts d Hb (clocks (2 * i)%nat) fuel _ 20 0 0 None E0).
    - destruct U as [U|(rs & r' & (o & Eo & Er) & Hin & U)].
      + refine (nonnegative_coloured ts r e _ U). destruct Al as (o & Eo & Er). destruct o as [|o]; cbn [crun] in Er.
        * cbn [fst] in Er. destruct (C31_range false None ts d Hb (clocks (2 * i)%nat) r (eq_sym Er)) as (T1 & T2 & _). symmetry in Er.
          assert (Fu : full_scores ts r) by (exact (crun_full false None ts d (clocks (2 * i)%nat) fuel OVoting r OVoting Hb (f_equal (fun y => (y, OVoting)) Er))). split.
          -- intros s Hs. destruct (full_trust ts r s Fu Hs) as [x Ex]. destruct (T1 s x Ex) as (q & -> & Hq). exists q. split; [exact Ex|lra].
          -- intros [v w] Hc. destruct (full_belief show_nat show_nat_inj ts r v w Fu Hc) as (m & x & Em & Ex). assert (Eb : belief_of r (v, w) = Some x) by (unfold belief_of; cbn [fst snd]; now rewrite Em). destruct (T2 (v, w) x Eb) as (q & -> & Hq). exists q. split; [exact Eb|lra].
        * destruct (requested_ok c ps ts l labels o Sf Hl Tl Eo) as (P1 & P2 & P3). destruct o as [a p it lg]. cbn [o_alg] in *.
          apply (proj1 (C58_nonnegative_scores false None ts d Hb (clocks (2 * i)%nat) fuel a p it lg P1 P2 P3)). destruct (run (clocks (2 * i)%nat) fuel (AObj a p it lg) d). cbn [fst] in *. congruence.
      + refine (nonnegative_coloured ts r' e _ U). destruct (requested_ok c ps ts l labels o Sf Hl Tl Eo) as (P1 & P2 & P3). destruct o as [a p it lg]. cbn [o_alg] in *.
        pose proof (proj2 (C58_nonnegative_scores false None ts d Hb (clocks (2 * i + 1)%nat) fuel a p it lg P1 P2 P3) rs Er) as Fl. rewrite Forall_forall in Fl. auto.
    - unfold previous_sound in Pv. subst previous. rewrite El in Pv. destruct j; try contradiction. exact (Nj _ eq_refl).
    - exact (Nc (sound_comparable previous s obj t b u it r Pv Ep El Hf)).
  Qed.
  (** A safe request is always answered: with the entries, with an error message, or, in the case of "usums" only, it may never be. *)
  Theorem C48_no_escape clocks fuel q :
    (forall lines items text text' m, parameter_lines q lines -> Forall2 (fun s it => algorithm_parameter pfloat decimal s = Ok it) lines items ->
       q_matrix q = Some text -> no_underscores text text' -> csv_to_masked_array parse text' = Ok m -> safe (q_algorithm q) (dict_of items) (get_triples label m)) ->
    previous_sound (q_previous q) ->
    (forall e, web_run clocks fuel q <> Escaped e) /\
    ((1000000 < Z.of_nat fuel)%Z -> ~ In (lit_str "usums") (q_algorithm q) -> web_run clocks fuel q <> NoResponse).
  Proof.
    intros Sf Pv. destruct (C48_run parse label pfloat decimal DEC ord Ord ltw rnd irrefl T show_nat show_w loads oset Oset show_nat_inj show_w_inj clocks fuel q) as [Q1 Q2].
    assert (K : (q_algorithm q = [] \/ q_matrix q = None \/ q_matrix q = Some []) \/ exists text, q_algorithm q <> [] /\ q_matrix q = Some text /\ text <> []).
    { destruct (q_algorithm q); [auto|]. destruct (q_matrix q) as [[|c t]|]; [auto|right|auto]. exists (c :: t). repeat split; discriminate. }
    destruct K as [K|(text & K1 & K2 & K3)]; [rewrite (Q1 K); split; discriminate|]. destruct (Q2 text K1 K2 K3) as (lines & Hl & [(b & li & af & e & _ & _ & _ & ->)|(items & Hi & text' & Ht & Q)]); [split; discriminate|].
    specialize (fun m => Sf lines items text text' m Hl Hi K2 Ht). destruct (csv_to_masked_array parse text') as [m|e]; [|rewrite Q; split; discriminate]. destruct Q as (d & Ed & Q). specialize (Sf m eq_refl).
    destruct (web_run clocks fuel q) as [out ms|e| |e|]; try (split; discriminate).
    - destruct Q as (i & l & Hn & Hr & _). exfalso. exact (safe_refuses clocks fuel _ d _ _ (q_algorithm q) i l _ Ed Sf Pv (nth_error_In _ _ Hn) Hr).
    - split; [discriminate|]. intros Hf Nu. exfalso. destruct Q as (i & l & Hn & Hr & _). destruct (safe_refuses clocks fuel _ d _ _ (q_algorithm q) i l _ Ed Sf Pv (nth_error_In _ _ Hn) Hr) as [H|H]; [lia|contradiction].
  Qed.

  (** ** Requests that do end in an unhandled exception *)
  Lemma alone_unique clock fuel ps (d : data) c r r' : alone clock fuel ps d c r -> alone clock fuel ps d c r' -> r = r'.
  Proof. intros (o & Eo & ->) (o' & Eo' & ->). congruence. Qed.
  Lemma alone_full clock fuel ps ts (d : data) c r : build false None ts = Ok d -> alone clock fuel ps d c (Ok r) -> full_scores ts r.
  Proof. intros Hb (o & _ & E). destruct (crun clock fuel o d) as [r0 o'] eqn:Eo. cbn [fst] in E. subst r0. exact (crun_full false None ts d _ _ _ _ _ Hb Eo). Qed.
  Lemma drawn_coloured ts (d : data) r g e : build false None ts = Ok d -> full_scores ts r -> drawn T show_nat show_w d r g -> ~ uncoloured ts r e.
  Proof.
    intros Hb Fu Dr (x & Ex & K). destruct (C48_graph T show_nat show_w show_nat_inj false None ts d r g Hb Fu Dr) as (pl & h & cols & _ & _ & Cn). destruct K as [(s & Hs & Es)|(v & w & m & Hc & Em & Ew)].
    - destruct (Cn (NSource s) Hs) as (x' & E1 & E2). congruence.
    - destruct (Cn (NClaim v w) Hc) as (m' & x' & E1 & E2 & E3). congruence.
  Qed.
  Lemma table_unique l c c' : In (l, c) label_table -> In (l, c') label_table -> c = c'.
  Proof. intros H H'. apply (proj2 (proj1 (C47_labels _ _))) in H, H'. congruence. Qed.

  (** "average_log" for data in which no source makes two claims *)
  Theorem C48_average_log_escapes clocks fuel q text text' m : q_algorithm q = [lit_str "average_log"] -> q_parameters q = None -> q_previous q = None ->
    q_matrix q = Some text -> text <> [] -> no_underscores text text' -> csv_to_masked_array parse text' = Ok m ->
    get_triples label m <> [] -> (forall s, In s (sources (get_triples label m)) -> List.length (claims_of (get_triples label m) s) = 1%nat) -> (20 < fuel)%nat ->
    exists e, web_run clocks fuel q = Escaped (EGraph e).
  Proof.
    intros Ea Ep Ev Em Nt Ht Ec NE One Hf. destruct (C48_run parse label pfloat decimal DEC ord Ord ltw rnd irrefl T show_nat show_w loads oset Oset show_nat_inj show_w_inj clocks fuel q) as [_ Q2].
    destruct (Q2 text ltac:(rewrite Ea; discriminate) Em Nt) as (lines & Hl & Q). unfold parameter_lines in Hl. rewrite Ep in Hl. subst lines.
    destruct Q as [(b & li & af & e & Hno & _)|(items & Hi & text2 & Ht2 & Q)]; [destruct b; discriminate|]. inversion Hi; subst items. clear Hi. unfold no_underscores in Ht, Ht2. rewrite <- Ht in Ht2. subst text2. rewrite Ec, Ea, Ev in Q.
    destruct Q as (d & Ed & Q). set (ts := get_triples label m) in *. change (build false None ts = Ok d) in Ed. clearbody ts. change (dict_of []) with (@nil (pystr * pvalue XR)) in Q.
    assert (Hb : build false (real_imp None) ts = Ok d) by exact Ed.
    assert (Al : exists r, alone (clocks 0%nat) fuel [] d CAverageLog (Ok r) /\ exists e, uncoloured ts r e).
    { destruct (C28_fixed_returns false (real_imp None) ts d Hb (clocks 0%nat) fuel AverageLog FIXED 20 0 None NE ltac:(discriminate) ltac:(discriminate) Hf) as (r & Er0).
      destruct (run (clocks 0%nat) fuel (AObj AverageLog FIXED (IFixed 20 0) None) d) as [r0 o'] eqn:Er. cbn [fst] in Er0. subst r0.
      exists r. split; [exists (OIterative (AObj AverageLog FIXED (IFixed 20 0) None)); split; [reflexivity|]; cbn [crun]; now rewrite Er|].
      destruct (C28_fixed false (real_imp None) ts d Hb (clocks 0%nat) fuel AverageLog FIXED 20 0 None r o' Er) as (k & Hk & _ & Ek & _). cbn in Ek.
      assert (R : reports ts r (fun _ => NaN) (fun _ => NaN)).
      { apply (C35_single_claims_nan false None ts d Hb (clocks 0%nat) fuel FIXED (IFixed 20 0) None r o' k); [|exact Er|exact Hk|rewrite Ek; discriminate]. intros (s & Hs & H2). rewrite (One s Hs) in H2. lia. }
      exists GIntOfNaN, NaN. split; [exact (proj1 C52_not_a_number)|]. left. destruct ts as [|[[s v] w] tr] eqn:Ets; [congruence|]. rewrite <- Ets in *. assert (Hs : In s (sources ts)) by (rewrite Ets; unfold sources; apply distinct_In; now left).
      exists s. split; [exact Hs|]. destruct R as [R _]. specialize (R s). unfold trust_of in R. apply mem_In in Hs. rewrite Hs in R. exact R. }
    destruct Al as (r & Al & e & Un). assert (Tl : In (lit_str "average_log", CAverageLog) label_table) by now left.
    assert (Same : forall c r', In (lit_str "average_log", c) label_table -> alone (clocks 0%nat) fuel [] d c r' -> r' = Ok r) by (intros c r' Hc A'; rewrite <- (table_unique _ _ _ Tl Hc) in A'; exact (alone_unique _ _ _ _ _ _ _ A' Al)).
    clear Q2. destruct (web_run clocks fuel q) as [out ms|e0| |e0|].
    - exfalso. destruct Q as (Q & _). destruct (Q 0%nat _ eq_refl) as (en & c & r' & Hc & A' & _ & Dr & _). pose proof (Same c _ Hc A') as [= ->]. exact (drawn_coloured ts d r _ e Ed (alone_full _ _ _ _ _ _ _ Ed Al) Dr Un).
    - destruct Q as (i & l & Hn & Hr & _). destruct i as [|i]; [injection Hn as <-|destruct i; discriminate]. exfalso. inversion Hr; subst; try discriminate; try congruence; match goal with H : forall c, ~ In (_, c) label_table |- _ => exact (H _ Tl) end.
    - destruct Q as (i & l & Hn & Hr & _). destruct i as [|i]; [injection Hn as <-|destruct i; discriminate]. exfalso. inversion Hr; subst. match goal with A' : alone _ _ _ _ _ _ |- _ => specialize (Same _ _ ltac:(eassumption) A') end. discriminate.
    - destruct Q as (i & l & Hn & Hr & _). destruct i as [|i]; [injection Hn as <-|destruct i; discriminate]. inversion Hr; subst; try discriminate; eauto. exfalso. match goal with A' : alone _ _ _ _ _ _ |- _ => specialize (Same _ _ ltac:(eassumption) A') end. discriminate.
    - destruct Q as (i & l & Hn & Hr & _). destruct i as [|i]; [injection Hn as <-|destruct i; discriminate]. exfalso. inversion Hr; subst. match goal with A' : alone _ _ _ _ _ _ |- _ => specialize (Same _ _ ltac:(eassumption) A') end. discriminate.
  Qed.
  (** "usums" with an iterator parameter for a fixed number of rounds *)
  Theorem C48_usums_escapes clocks fuel q text text' m lines items n k : q_algorithm q = [lit_str "usums"] -> parameter_lines q lines ->
    Forall2 (fun s it => algorithm_parameter pfloat decimal s = Ok it) lines items -> iterator_cell (dict_of items) = Some (IFixed n k) ->
    q_matrix q = Some text -> text <> [] -> no_underscores text text' -> csv_to_masked_array parse text' = Ok m -> get_triples label m <> [] -> (200 < fuel)%nat ->
    web_run clocks fuel q = Escaped (EAlg NoSuchMethod).
  Proof.
    intros Ea Hl0 Hi0 Eit Em Nt Ht Ec NE Hf. destruct (C48_run parse label pfloat decimal DEC ord Ord ltw rnd irrefl T show_nat show_w loads oset Oset show_nat_inj show_w_inj clocks fuel q) as [_ Q2].
    destruct (Q2 text ltac:(rewrite Ea; discriminate) Em Nt) as (lines' & Hl & Q). assert (lines' = lines).
    { unfold parameter_lines in Hl, Hl0. destruct (q_parameters q) as [s|]; [|congruence]. destruct Hl as (N1 & J1 & P1), Hl0 as (N2 & J2 & P2). rewrite <- (split_join newline lines' N1 P1), <- (split_join newline lines N2 P2). congruence. } subst lines'.
    assert (Det : forall its its', Forall2 (fun s it => algorithm_parameter pfloat decimal s = Ok it) lines its -> Forall2 (fun s it => algorithm_parameter pfloat decimal s = Ok it) lines its' -> its = its').
    { clear. induction lines as [|l ls IH]; intros its its' H H'; inversion H; inversion H'; subst; [reflexivity|]. f_equal; [congruence|auto]. }
    destruct Q as [(b & li & af & e & El & _ & Ee & _)|(items' & Hi & text2 & Ht2 & Q)].
    { exfalso. destruct (Forall2_In_l _ _ _ li Hi0) as (it & _ & Eit'); [rewrite El; apply in_or_app; right; now left|]. congruence. }
    rewrite (Det _ _ Hi Hi0) in Q. clear Hi items'. unfold no_underscores in Ht, Ht2. rewrite <- Ht in Ht2. subst text2. rewrite Ec, Ea in Q. clear Q2.
    destruct Q as (d & Ed & Q). set (ts := get_triples label m) in *. change (build false None ts = Ok d) in Ed. clearbody ts. assert (Hb : build false (real_imp None) ts = Ok d) by exact Ed.
    set (ps := dict_of items) in *. assert (P : parsed pfloat decimal ps) by (exists lines, items; auto).
    assert (Al : alone (clocks 0%nat) fuel ps d CUnboundedSums (Err NoSuchMethod)).
    { exists (OIterative (AObj UnboundedSums (prior_given ps COUNT) (iterator_given ps (IOrd 20 0 0)) None)). split; [reflexivity|]. destruct (proj2 (parsed_iterator pfloat decimal DEC ps (IOrd 20 0 0) P) _ Eit) as (-> & _ & Hlim). cbn [crun].
      pose proof (proj2 (C40_needs_ordinal false None ts d Hb (clocks 0%nat) fuel (prior_given ps COUNT) (IFixed n k) None eq_refl) n k eq_refl NE) as E.
      specialize (E (parsed_prior pfloat decimal DEC ps COUNT P ltac:(discriminate)) ltac:(lia)). destruct (run _ _ _ d). cbn [fst] in *. congruence. }
    assert (Tl : In (lit_str "usums", CUnboundedSums) label_table) by (cbn [label_table In]; tauto).
    assert (Same : forall c r', In (lit_str "usums", c) label_table -> alone (clocks 0%nat) fuel ps d c r' -> r' = Err NoSuchMethod) by (intros c r' Hc A'; rewrite <- (table_unique _ _ _ Tl Hc) in A'; exact (alone_unique _ _ _ _ _ _ _ A' Al)).
    clearbody ps. destruct (web_run clocks fuel q) as [out ms|e0| |e0|].
    - exfalso. destruct Q as (Q & _). destruct (Q 0%nat _ eq_refl) as (en & c & r' & Hc & A' & _). pose proof (Same c _ Hc A'). discriminate.
    - destruct Q as (i & l & Hn & Hr & _). destruct i as [|i]; [injection Hn as <-|destruct i; discriminate]. exfalso. inversion Hr; subst; try discriminate; try congruence; try (match goal with H : forall c, ~ In (_, c) label_table |- _ => exact (H _ Tl) end);
        match goal with A' : alone _ _ _ _ _ _ |- _ => specialize (Same _ _ ltac:(eassumption) A'); discriminate end.
    - destruct Q as (i & l & Hn & Hr & _). destruct i as [|i]; [injection Hn as <-|destruct i; discriminate]. exfalso. inversion Hr; subst. match goal with A' : alone _ _ _ _ _ _ |- _ => specialize (Same _ _ ltac:(eassumption) A'); discriminate end.
    - destruct Q as (i & l & Hn & Hr & _). destruct i as [|i]; [injection Hn as <-|destruct i; discriminate]. inversion Hr; subst; match goal with A' : alone _ _ _ _ _ _ |- _ => specialize (Same _ _ ltac:(eassumption) A'); try discriminate end. congruence.
    - destruct Q as (i & l & Hn & Hr & _). destruct i as [|i]; [injection Hn as <-|destruct i; discriminate]. exfalso. inversion Hr; subst. match goal with A' : alone _ _ _ _ _ _ |- _ => specialize (Same _ _ ltac:(eassumption) A'); discriminate end.
  Qed.
  (** a previous result that is JSON, but not an object, sent with a request that would otherwise be answered *)
  Theorem C48_previous_escapes clocks fuel q s j out messages : loads s = Some j -> (forall obj, j <> JvObj obj) ->
    web_run clocks fuel (Request (q_algorithm q) (q_matrix q) (q_parameters q) None) = R200 out messages -> q_previous q = Some s ->
    web_run clocks fuel q = Escaped EPrevType.
  Proof.
    intros El Nj E0 Ev. pose proof (C48_run parse label pfloat decimal DEC ord Ord ltw rnd irrefl T show_nat show_w loads oset Oset show_nat_inj show_w_inj clocks fuel) as G.
    destruct (G (Request (q_algorithm q) (q_matrix q) (q_parameters q) None)) as [A1 A2]. destruct (G q) as [_ B2]. rewrite E0 in A1, A2. cbn [q_algorithm q_matrix q_parameters q_previous] in A1, A2. clear G E0.
    assert (K : exists text, q_algorithm q <> [] /\ q_matrix q = Some text /\ text <> []).
    { destruct (q_algorithm q); [discriminate (A1 (or_introl eq_refl))|]. destruct (q_matrix q) as [[|c t]|]; [discriminate A1; auto| |discriminate A1; auto]. exists (c :: t). repeat split; discriminate. }
    destruct K as (text & K1 & K2 & K3). destruct (A2 text K1 K2 K3) as (lines & Hl & [(b & li & af & e & _ & _ & _ & Q)|(items & Hi & text' & Ht & Q)]); [discriminate|].
    destruct (B2 text K1 K2 K3) as (lines' & Hl' & Q'). assert (lines' = lines).
    { unfold parameter_lines in Hl, Hl'. cbn [q_parameters] in Hl. destruct (q_parameters q) as [u|]; [|congruence]. destruct Hl as (N1 & J1 & P1), Hl' as (N2 & J2 & P2). rewrite <- (split_join newline lines' N2 P2), <- (split_join newline lines N1 P1). congruence. } subst lines'.
    assert (Det : forall its its', Forall2 (fun s it => algorithm_parameter pfloat decimal s = Ok it) lines its -> Forall2 (fun s it => algorithm_parameter pfloat decimal s = Ok it) lines its' -> its = its').
    { clear. induction lines as [|l ls IH]; intros its its' H H'; inversion H; inversion H'; subst; [reflexivity|]. f_equal; [congruence|auto]. }
    destruct Q' as [(b & li & af & e & El' & _ & Ee & _)|(items' & Hi' & text2 & Ht2 & Q')].
    { exfalso. destruct (Forall2_In_l _ _ _ li Hi) as (it & _ & Eit'); [rewrite El'; apply in_or_app; right; now left|]. congruence. }
    rewrite (Det _ _ Hi' Hi) in Q'. clear Hi' items'. unfold no_underscores in Ht, Ht2. rewrite <- Ht in Ht2. subst text2. destruct (csv_to_masked_array parse text') as [m|e]; [|discriminate].
    destruct Q as (d & Ed & Q & _). destruct Q' as (d' & Ed' & Q'). assert (d' = d) by congruence. subst d'. rewrite Ev in Q'. clear A1 A2 B2. set (ts := get_triples label m) in *. change (build false None ts = Ok d) in Ed. clear Ed'. clearbody ts. set (ps := dict_of items) in *. clearbody ps.
    assert (No : forall i l e, ~ entry_for clocks fuel d ps (Some s) i l e).
    { intros i l e (c & r & _ & _ & _ & _ & _ & H). destruct (we_diff e); [|exact H]. destruct H as (obj & t & bl & u & it & H & _). rewrite El in H. injection H as ->. exact (Nj _ eq_refl). }
    assert (Key : forall i l r, nth_error (q_algorithm q) i = Some l -> refuses clocks fuel ts d ps (Some s) i l r -> r = Escaped EPrevType).
    { intros i l r Hn Hr. destruct (Q i l Hn) as (en & c & r0 & Tl & Al & _ & Dr & An & _). pose proof (alone_full _ _ _ _ _ _ _ Ed Al) as Fu.
      assert (Same : forall c' r', In (l, c') label_table -> alone (clocks (2 * i)%nat) fuel ps d c' r' -> c' = c /\ r' = Ok r0) by (intros c' r' Hc A'; pose proof (table_unique _ _ _ Hc Tl); subst c'; split; [reflexivity|exact (alone_unique _ _ _ _ _ _ _ A' Al)]).
      destruct Hr as [Nl|c' _ Ets|c' Hc A'|c' Hc A' _|e Hc A' _|c' r1 e Hc A' U|c' r1 s' Hc A' Es El'|c' r1 s' obj name Hc A' Es El' _ _|c' r1 s' j' Hc A' Es El' _|c' r1 s' obj t bl u it Hc A' Es El' _ _]; try reflexivity; try (destruct (Same _ _ Hc A'); discriminate).
      - exfalso. exact (Nl c Tl).
      - exfalso. destruct Al as (o & _ & Eo). subst ts. destruct o as [|o]; cbn [crun] in Eo.
        + pose proof (C26_empty false None [] d Ed (clocks (2 * i)%nat) fuel (AObj Sums FIXED (IFixed 0 0) None)) as [Q0 _]. destruct (Q0 eq_refl) as (_ & _ & Q3). cbn [fst] in Eo. rewrite Q3 in Eo. discriminate.
        + destruct (C26_empty false None [] d Ed (clocks (2 * i)%nat) fuel o) as [Q0 _]. destruct (Q0 eq_refl) as (Q1 & _ & _). destruct (run (clocks (2 * i)%nat) fuel o d). cbn [fst] in *. congruence.
      - exfalso. destruct (Same _ _ Hc A') as [Ec [= ->]]. subst c'. destruct U as [U|(rs & r' & (o & Eo & Er) & Hin & U)]; [exact (drawn_coloured ts d r0 _ e Ed Fu Dr U)|].
        destruct (we_animation en) as [[fps frames]|]; [|subst c; discriminate Eo]. destruct An as (_ & rs' & (o' & Eo' & Er') & Dn). assert (o' = o) by congruence. subst o'. assert (rs' = rs) by congruence. subst rs'.
        destruct (Forall2_In_l _ _ _ r' Dn Hin) as (g & _ & Dg). pose proof (run_iter_full false None ts d _ _ _ _ Ed Er) as Fl. rewrite Forall_forall in Fl. exact (drawn_coloured ts d r' g e Ed (Fl r' Hin) Dg U).
      - exfalso. congruence.
      - exfalso. injection Es as <-. rewrite El in El'. injection El' as ->. exact (Nj _ eq_refl). }
    destruct (web_run clocks fuel q) as [out' ms|e| |e|]; try (destruct Q' as (i & l & Hn & Hr & _); exact (Key i l _ Hn Hr)).
    destruct Q' as (Q' & _). destruct (q_algorithm q) as [|l ls]; [congruence|]. destruct (Q' 0%nat l eq_refl) as (e & He). exfalso. exact (No 0%nat l e He).
  Qed.
End Safe.

Module WebExamples.
  Import CsvExamples ClientExamples CliExamples.
  Local Close Scope R_scope.
  Lemma show1_inj a b : show1 a = show1 b -> a = b.
  Proof. intros H. apply (f_equal (@List.length _)) in H. unfold show1 in H. rewrite !repeat_length in H. lia. Qed.
  Lemma ident_ok' : forall l, Permutation (ident l) l. Proof. intros l. apply Permutation_refl. Qed.
  Section AnyTrig.
    Variables (T : trig XR) (loads : pystr -> option (jval (F:=XR))) (clocks : nat -> nat -> XR).
    Notation page := (web_run parse1 (fun n : nat => n) pf ascii_decimal ident Nat.ltb (fun _ => 0) T show1 show1 loads ident clocks).
    (** three rows: no claims, one claim, two claims *)
    Definition request1 previous := Request [lit_str "sums"; lit_str "average_log"; lit_str "voting"; lit_str "sums"] (Some (to_csv show1 m2)) (Some (lit_str "iterator=fixed-7")) previous.
    Lemma lines1 previous lines : parameter_lines (request1 previous) lines -> lines = [lit_str "iterator=fixed-7"].
    Proof.
      unfold parameter_lines. cbn [q_parameters request1]. intros (N1 & J1 & P1). rewrite <- (split_join newline lines N1 P1), J1. vm_compute. reflexivity.
    Qed.
    Lemma safe1 previous lines items text text' m : parameter_lines (request1 previous) lines -> Forall2 (fun s it => algorithm_parameter pf ascii_decimal s = Ok it) lines items ->
       q_matrix (request1 previous) = Some text -> no_underscores text text' -> csv_to_masked_array parse1 text' = Ok m ->
       items = [(lit_str "iterator", PIterator (IFixed 7 0))] /\ m = m2 /\ safe (q_algorithm (request1 previous)) (dict_of items) (get_triples (fun n : nat => n) m).
    Proof.
      intros Hl Hi [= <-] -> Em. pose proof (lines1 previous lines Hl). subst lines. inversion Hi as [|? it ? its E1 E2 E3 E4]; subst. inversion E2; subst. clear Hi E2.
      assert (Ei : it = (lit_str "iterator", PIterator (IFixed 7 0))) by (vm_compute in E1; injection E1 as <-; reflexivity). subst it. assert (m = m2) by (vm_compute in Em; injection Em as <-; reflexivity). subst m. split; [reflexivity|]. split; [reflexivity|].
      split; [|split].
      - intros name x E. apply dict_of_In in E. destruct E as [[= _ ]|[]].
      - intros [H|[H|[H|[H|[]]]]]; discriminate H.
      - intros _. exists 2%nat. split; [vm_compute; tauto|]. vm_compute. lia.
    Qed.
    Example never_escapes e : page 100 (request1 None) <> Escaped e.
    Proof.
      refine (proj1 (C48_no_escape parse1 (fun n : nat => n) pf ascii_decimal ascii_ok ident ident_ok Nat.ltb (fun _ => 0) xr_irrefl T show1 show1 loads ident ident_ok' show1_inj show1_inj clocks 100 (request1 None) _ I) e).
      intros lines items text text' m H1 H2 H3 H4 H5. exact (proj2 (proj2 (safe1 None lines items text text' m H1 H2 H3 H4 H5))).
    Qed.
    (** it is answered: three entries, one of them asked for twice *)
    Lemma answered_from q (d : dataset nat nat nat XR) : build false None (get_triples (fun n : nat => n) m2) = Ok d -> (forall e, q <> Escaped e) ->
      response_spec Nat.ltb (fun _ => 0) T show1 show1 loads clocks 100 (get_triples (fun n : nat => n) m2) d [(lit_str "iterator", PIterator (IFixed 7 0))] None (q_algorithm (request1 None)) q ->
      exists out messages, q = R200 out messages /\ forall l, In l (dkeys out) <-> l = lit_str "sums" \/ l = lit_str "average_log" \/ l = lit_str "voting".
    Proof.
      intros Hb Ne Q.
      assert (Ok1 : forall i l c r, In l (q_algorithm (request1 None)) -> In (l, c) label_table -> alone (clocks (2 * i)) 100 [(lit_str "iterator", PIterator (IFixed 7 0))] d c r -> exists x, r = Ok x).
      { intros i l c r Hl Hc (o & Eo & ->). assert (K : o = OVoting \/ exists a p, a <> UnboundedSums /\ p <> BadPrior /\ o = OIterative (AObj a p (IFixed 7 0) None)).
        { destruct Hl as [<-|[<-|[<-|[<-|[]]]]]; apply (proj2 (proj1 (C47_labels _ _))) in Hc; vm_compute in Hc; injection Hc as <-; cbn in Eo; injection Eo as <-;
            [right; exists Sums, FIXED|right; exists AverageLog, FIXED|left; reflexivity|right; exists Sums, FIXED]; (split; [discriminate|]); (split; [discriminate|reflexivity]). }
        destruct K as [->|(a & p & Ha & Hp & ->)].
        - destruct (C31_voting false None (get_triples (fun n : nat => n) m2) d Hb (clocks (2 * i)) ltac:(discriminate)) as (x & Ex & _). exists x. exact Ex.
        - destruct (C28_fixed_returns false None (get_triples (fun n : nat => n) m2) d Hb (clocks (2 * i)) 100 a p 7 0 None ltac:(discriminate) Ha Hp ltac:(cbn; lia)) as [x Ex].
          exists x. rewrite <- Ex. clear. unfold crun. now destruct (run _ _ _ _) as [r1 o1]. }
      destruct q as [out ms|e| |e|].
      - exists out, ms. split; [reflexivity|]. destruct Q as (_ & _ & Q & _). intros l. rewrite Q. clear. cbn [request1 q_algorithm In]. intuition.
      - exfalso. destruct Q as (i & l & Hn & Hr & _). apply nth_error_In in Hn. inversion Hr; subst; try discriminate.
        match goal with H : forall c, ~ In (l, c) label_table |- _ => destruct Hn as [<-|[<-|[<-|[<-|[]]]]]; [apply (H CSums)|apply (H CAverageLog)|apply (H CMajorityVoting)|apply (H CSums)]; cbn; tauto end.
      - exfalso. destruct Q as (i & l & Hn & Hr & _). apply nth_error_In in Hn. inversion Hr; subst. match goal with A : alone _ _ _ _ _ _ |- _ => destruct (Ok1 i l _ _ Hn ltac:(eassumption) A); discriminate end.
      - exfalso. exact (Ne e eq_refl).
      - exfalso. destruct Q as (i & l & Hn & Hr & _). apply nth_error_In in Hn. inversion Hr; subst. match goal with A : alone _ _ _ _ _ _ |- _ => destruct (Ok1 i l _ _ Hn ltac:(eassumption) A); discriminate end.
    Qed.
    Example answered : exists out messages, page 100 (request1 None) = R200 out messages /\ forall l, In l (dkeys out) <-> l = lit_str "sums" \/ l = lit_str "average_log" \/ l = lit_str "voting".
    Proof.
      destruct (C48_run parse1 (fun n : nat => n) pf ascii_decimal ascii_ok ident ident_ok Nat.ltb (fun _ => 0) xr_irrefl T show1 show1 loads ident ident_ok' show1_inj show1_inj clocks 100 (request1 None)) as [_ Q].
      destruct (Q (to_csv show1 m2) ltac:(discriminate) eq_refl ltac:(discriminate)) as (lines & Hl & [(b & li & af & e & El & _ & Ee & _)|(items & Hi & text' & Ht & Q')]).
      { exfalso. rewrite (lines1 None lines Hl) in El. destruct b as [|? [|]]; [injection El as <- <-; vm_compute in Ee; discriminate|discriminate|discriminate]. }
      assert (Ec : csv_to_masked_array parse1 text' = Ok m2) by (unfold no_underscores in Ht; rewrite Ht; vm_compute; reflexivity). rewrite Ec in Q'. destruct Q' as (d & Ed & Q').
      destruct (safe1 None lines items _ text' m2 Hl Hi eq_refl Ht Ec) as (-> & _ & _). exact (answered_from _ d Ed never_escapes Q').
    Qed.
    (** the same request with previous results "5" *)
    Example previous_number x : loads (lit_str "5") = Some (JvNum x) -> page 100 (request1 (Some (lit_str "5"))) = Escaped EPrevType.
    Proof.
      intros El. destruct answered as (out & ms & E & _).
      exact (C48_previous_escapes parse1 (fun n : nat => n) pf ascii_decimal ascii_ok ident ident_ok Nat.ltb (fun _ => 0) xr_irrefl T show1 show1 loads ident ident_ok' show1_inj show1_inj clocks 100 (request1 (Some (lit_str "5"))) (lit_str "5") (JvNum x) out ms El ltac:(discriminate) E eq_refl).
    Qed.
    (** two sources, one claim each *)
    Definition request2 := Request [lit_str "average_log"] (Some (to_csv show1 [[Some 0; None]; [None; Some 1]])) None None.
    Definition request3 := Request [lit_str "usums"] (Some (to_csv show1 m2)) (Some (lit_str "iterator=fixed-7")) None.
    Example single_claims : exists e, page 100 request2 = Escaped (EGraph e).
    Proof.
      refine (C48_average_log_escapes parse1 (fun n : nat => n) pf ascii_decimal ascii_ok ident ident_ok Nat.ltb (fun _ => 0) xr_irrefl T show1 show1 loads ident ident_ok' show1_inj show1_inj clocks 100 request2 _ _ [[Some 0; None]; [None; Some 1]] eq_refl eq_refl eq_refl eq_refl _ eq_refl _ _ _ _).
      - discriminate.
      - vm_compute. reflexivity.
      - discriminate.
      - intros s Hs. vm_compute in Hs. destruct Hs as [<-|[<-|[]]]; vm_compute; reflexivity.
      - lia.
    Qed.
    Example usums_fixed : page 300 request3 = Escaped (EAlg NoSuchMethod).
    Proof.
      refine (C48_usums_escapes parse1 (fun n : nat => n) pf ascii_decimal ascii_ok ident ident_ok Nat.ltb (fun _ => 0) xr_irrefl T show1 show1 loads ident ident_ok' show1_inj show1_inj clocks 300 request3 _ _ m2 [lit_str "iterator=fixed-7"] [(lit_str "iterator", PIterator (IFixed 7 0))] 7 0 eq_refl _ _ _ eq_refl _ eq_refl _ _ _).
      - split; [discriminate|]. split; [reflexivity|]. intros l [<-|[]] H. vm_compute in H. repeat destruct H as [H|H]; try discriminate H. exact H.
      - repeat constructor.
      - reflexivity.
      - discriminate.
      - vm_compute. reflexivity.
      - discriminate.
      - lia.
    Qed.
  End AnyTrig.
End WebExamples.
