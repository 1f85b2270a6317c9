(** C41: the order of the triples and the names of sources, variables and values do not matter. *)
From Coq Require Import Reals Lra.
From Verif Require Import Base Num Sparse Spec SpecAlg Dataset DatasetProofs DatasetRep Iterators Algorithms Driver Distance Ranking Rounds
  AlgRep AlgRounds AlgTF PropsData PropsIter PropsRun PropsAlg AlgPack PropsOrd Iso.
Local Open Scope R_scope.

Section Sym.
  Context {S V W : Type} {ES : Eqb S} {EV : Eqb V} {EW : Eqb W} {S' V' W' : Type} {ES' : Eqb S'} {EV' : Eqb V'} {EW' : Eqb W'}.
  Notation claim := (V * W)%type.
  Notation claim' := (V' * W')%type.
  Variables (fS : S -> S') (fV : V -> V') (fW : W -> W').
  Definition rename (t : S * V * W) : S' * V' * W' := (fS (t_src t), fV (t_var t), fW (t_val t)).

  (** Both runs fail in the same way, or both return: after the same number of rounds, in the same (mocked) time, with the same
      scores under the new names, and no scores for anything else. *)
  Definition same_results (r : result S V W xr) (r' : result S' V' W' xr) : Prop :=
    r_iterations r' = r_iterations r /\ r_time r' = r_time r /\
    (forall s, trust_of r s <> None -> trust_of r' (fS s) = trust_of r s) /\
    (forall c, belief_of r c <> None -> belief_of r' (fV (fst c), fW (snd c)) = belief_of r c) /\
    (forall s', trust_of r' s' <> None -> exists s, s' = fS s /\ trust_of r s <> None) /\
    (forall c', belief_of r' c' <> None -> exists c, c' = (fV (fst c), fW (snd c)) /\ belief_of r c <> None).
  Definition same_outcome (o : res aerr (result S V W xr)) (o' : res aerr (result S' V' W' xr)) : Prop :=
    match o, o' with Err e, Err e' => e = e' | Ok r, Ok r' => same_results r r' | _, _ => False end.

  Section Two.
    Variables (ts : list (S * V * W)) (ts' : list (S' * V' * W')).
    Hypothesis I : iso fS fV fW ts ts'.
    Variables (b b' : bool) (f : option (V -> W -> W -> option R)) (f' : option (V' -> W' -> W' -> option R)).
    Variables (d : dataset S V W XR) (d' : dataset S' V' W' XR).
    Hypothesis Hb : build b (real_imp f) ts = Ok d.
    Hypothesis Hb' : build b' (real_imp f') ts' = Ok d'.
    Hypothesis Hf : same_implications fV fW f f'.
    Let R0 : ds_rep ts (real_imp f) d := build_rep _ _ _ _ Hb.
    Let R0' : ds_rep ts' (real_imp f') d' := build_rep _ _ _ _ Hb'.

    Definition linked (x x' : vec XR * vec XR) : Prop := exists t g t' g',
      x = (map t (sources ts), map g (claims ts)) /\ x' = (map t' (sources ts'), map g' (claims ts')) /\
      (forall s, In s (sources ts) -> t' (fS s) = t s) /\ (forall c, In c (claims ts) -> g' (fC fV fW c) = g c).

    Lemma reports_dicts {S0 V0 W0} {E1 : Eqb S0} {E2 : Eqb V0} {E3 : Eqb W0} (l : list (S0 * V0 * W0)) (t : S0 -> xr) (g : V0 * W0 -> xr) tm k :
      reports l (Result (tdict (F:=XR) l (map t (sources l))) (bdict (F:=XR) l (map g (claims l))) tm k) t g.
    Proof.
      apply reports_intro; cbn [r_trust r_belief].
      - apply map_ext_in. intros s Hs. f_equal. apply nth_error_nth_eq. now rewrite nth_error_map, (nth_error_pos _ _ Hs).
      - unfold bdict, beliefs_of. apply map_ext. intros x. f_equal. unfold scores_of. apply map_ext_in. intros c Hc. apply filter_In in Hc. f_equal.
        apply nth_error_nth_eq. rewrite nth_error_map, (nth_error_pos _ _ (proj1 Hc)). reflexivity.
    Qed.
    Lemma reports_same r r' t g t' g' : reports ts r t g -> reports ts' r' t' g' ->
      (forall s, In s (sources ts) -> t' (fS s) = t s) -> (forall c, In c (claims ts) -> g' (fC fV fW c) = g c) ->
      r_iterations r' = r_iterations r -> r_time r' = r_time r -> same_results r r'.
    Proof.
      intros (A & B & _) (A' & B' & _) Ht Hg E1 E2. split; [exact E1|]. split; [exact E2|]. split; [|split; [|split]].
      - intros s H. rewrite A in H. destruct (mem s (sources ts)) eqn:M; [|congruence]. rewrite A, A', M. apply mem_In in M.
        assert (M' : mem (fS s) (sources ts') = true).
        { apply mem_In. apply (Permutation_in _ (iso_src _ _ _ _ _ I)). now apply in_map. }
        rewrite M'. now rewrite Ht.
      - intros c H. rewrite B in H. destruct (mem c (claims ts)) eqn:M; [|congruence]. rewrite B, B', M. apply mem_In in M.
        change (fV (fst c), fW (snd c)) with (fC fV fW c).
        assert (M' : mem (fC fV fW c) (claims ts') = true).
        { apply mem_In. apply (Permutation_in _ (iso_cl _ _ _ _ _ I)). now apply in_map. }
        rewrite M'. now rewrite Hg.
      - intros s' H. rewrite A' in H. destruct (mem s' (sources ts')) eqn:M; [|congruence]. apply mem_In in M.
        apply (Permutation_in _ (Permutation_sym (iso_src _ _ _ _ _ I))) in M. apply in_map_iff in M. destruct M as (s & <- & Hs).
        exists s. split; [reflexivity|]. rewrite A. apply mem_In in Hs. rewrite Hs. discriminate.
      - intros c' H. rewrite B' in H. destruct (mem c' (claims ts')) eqn:M; [|congruence]. apply mem_In in M.
        apply (Permutation_in _ (Permutation_sym (iso_cl _ _ _ _ _ I))) in M. apply in_map_iff in M. destruct M as (c & <- & Hs).
        exists c. split; [reflexivity|]. rewrite B. apply mem_In in Hs. rewrite Hs. discriminate.
    Qed.
    Lemma linked_same x x' tm k : linked x x' ->
      same_results (Result (tdict (F:=XR) ts (fst x)) (bdict (F:=XR) ts (snd x)) tm k) (Result (tdict (F:=XR) ts' (fst x')) (bdict (F:=XR) ts' (snd x')) tm k).
    Proof.
      intros (t & g & t' & g' & -> & -> & Ht & Hg). cbn [fst snd].
      exact (reports_same _ _ t g t' g' (reports_dicts _ _ _ _ _) (reports_dicts _ _ _ _ _) Ht Hg eq_refl eq_refl).
    Qed.
    Lemma ne_iff : ts <> [] -> ts' <> [].
    Proof.
      intros NE E. apply NE. apply sources_nil. pose proof (iso_src _ _ _ _ _ I) as P. rewrite E in P. apply Permutation_length in P. rewrite map_length in P.
      cbn in P. now destruct (sources ts).
    Qed.

    Lemma outcome clock fuel a p it lg lg' x0 x0' : ts <> [] ->
      init a p d = Some x0 -> init a p d' = Some x0' ->
      (forall it k, match final a it (scores a d x0 k), final a it (scores a d' x0' k) with Ok x, Ok x' => linked x x' | Err e, Err e' => e = e' | _, _ => False end) ->
      (forall it k, compare it (cmp1 a d x0 k) (cmp2 a d x0 k) = compare it (cmp1 a d' x0' k) (cmp2 a d' x0' k)) ->
      (forall k, stops a d x0 k = stops a d' x0' k) ->
      same_outcome (fst (run clock fuel (AObj a p it lg) d)) (fst (run clock fuel (AObj a p it lg') d')).
    Proof.
      intros NE E E' Hfin Hc Hs. rewrite (run_char clock ts _ d R0 NE), (run_char clock ts' _ d' R0' (ne_iff NE)), E, E'.
      rewrite (it_loop_ext _ _ _ _ _ _ fuel (reset it) 0 Hc Hs). destruct (it_loop _ _ _ fuel (reset it) 0) as [[q k] it'].
      cbn [fst]. destruct q as [[]|e]; [|reflexivity]. specialize (Hfin it' k).
      destruct (final a it' (scores a d x0 k)) as [x|], (final a it' (scores a d' x0' k)) as [x'|]; try contradiction; [|exact Hfin].
      now apply linked_same.
    Qed.

    Lemma linked_denote x x' : sim fS fV fW ts x x' -> linked (denote ts x) (denote ts' x').
    Proof.
      intros [Ht Hc]. exists (fun s => Fin (fst x s)), (fun c => Fin (snd x c)), (fun s => Fin (fst x' s)), (fun c => Fin (snd x' c)).
      split; [reflexivity|]. split; [reflexivity|]. split; intros z Hz.
      - now rewrite Ht.
      - now rewrite Hc.
    Qed.
    Lemma final_plain a it (x : vec XR * vec XR) : a <> UnboundedSums -> final a it x = Ok x.
    Proof. destruct a; cbn; congruence. Qed.
    Lemma data_ok_iso a : data_ok ts a -> data_ok ts' a.
    Proof.
      destruct a; cbn; trivial. intros (s & Hs & L). exists (fS s). split.
      - apply (Permutation_in _ (iso_src _ _ _ _ _ I)). now apply in_map.
      - rewrite <- (Permutation_length (claims_of_iso _ _ _ _ _ I s Hs)). now rewrite map_length.
    Qed.
    Lemma linked_nans : linked (nans (sources ts), nans (claims ts)) (nans (sources ts'), nans (claims ts')).
    Proof. exists (fun _ => NaN), (fun _ => NaN), (fun _ => NaN), (fun _ => NaN). repeat split; reflexivity. Qed.

    (** parameter values covered: those for which the recurrences are defined, and TruthFinder's early finish *)
    Definition covered (a : alg XR) : Prop := params_ok a \/ exists rho gamma, a = TruthFinder (Fin rho) (Fin gamma) (Fin 1).

    Theorem iso_same_outcome clock fuel a p it lg lg' : covered a ->
      same_outcome (fst (run clock fuel (AObj a p it lg) d)) (fst (run clock fuel (AObj a p it lg') d')).
    Proof.
      intros Hcov. assert (D : ts = [] \/ ts <> []) by (destruct ts; [left; reflexivity|right; discriminate]). destruct D as [Z|NE].
      - assert (Z' : ts' = []).
        { apply sources_nil. pose proof (iso_src _ _ _ _ _ I) as P. rewrite Z in P. cbn in P. now apply Permutation_nil in P. }
        pose proof (C26_empty b (real_imp f) ts d Hb clock fuel (AObj a p it lg)) as Q. pose proof (C26_empty b' (real_imp f') ts' d' Hb' clock fuel (AObj a p it lg')) as Q'.
        destruct (proj1 Q Z) as (-> & _). destruct (proj1 Q' Z') as (-> & _). reflexivity.
      - pose proof (ne_iff NE) as NE'.
        destruct Hcov as [Hp|(rho & gamma & ->)].
        + pose proof (pack_start b f ts d Hb NE a p Hp) as Ei. pose proof (pack_start b' f' ts' d' Hb' NE' a p Hp) as Ei'.
          pose proof (start_sim fS fV fW ts ts' I a p) as Hs.
          destruct (start ts a p) as [x0|] eqn:E0, (start ts' a p) as [x0'|] eqn:E0'; try contradiction; cbn [option_map] in Ei, Ei'.
          2:{ rewrite (run_char clock ts _ d R0 NE), (run_char clock ts' _ d' R0' NE'), Ei, Ei'. reflexivity. }
          pose proof (pack_start_good ts a p x0 Hp E0) as G. pose proof (pack_start_good ts' a p x0' Hp E0') as G'.
          assert (Dok : data_ok ts a \/ (a = AverageLog /\ forall s, In s (sources ts) -> length (claims_of ts s) = 1%nat)).
          { destruct a; try (left; exact Logic.I).
            destruct (existsb (fun s => (2 <=? length (claims_of ts s))%nat) (sources ts)) eqn:Ex.
            - left. apply existsb_exists in Ex. destruct Ex as (s & Hs1 & L). exists s. split; [exact Hs1|]. now apply Nat.leb_le.
            - right. split; [reflexivity|]. intros s Hs1. destruct (claims_of_ne ts s Hs1) as [c Hc].
              destruct (Nat.le_gt_cases 2 (length (claims_of ts s))) as [L|L].
              + exfalso. assert (X : existsb (fun s => (2 <=? length (claims_of ts s))%nat) (sources ts) = true); [|congruence].
                apply existsb_exists. exists s. split; [exact Hs1|]. now apply Nat.leb_le.
              + destruct (claims_of ts s); [destruct Hc|cbn in *; lia]. }
          destruct Dok as [Hd|[-> H1]].
          * pose proof (data_ok_iso a Hd) as Hd'.
            pose proof (pack_cmp b f ts d Hb NE a x0 Hp Hd G) as C. pose proof (pack_cmp b' f' ts' d' Hb' NE' a x0' Hp Hd' G') as C'.
            pose proof (pack_scores b f ts d Hb NE a x0 Hp Hd G) as Sc. pose proof (pack_scores b' f' ts' d' Hb' NE' a x0' Hp Hd' G') as Sc'.
            apply (outcome clock fuel a p it lg lg' (denote ts x0) (denote ts' x0') NE Ei Ei').
            -- intros it0 k. rewrite (proj1 (Sc k)), (proj1 (Sc' k)).
               pose proof (rounds_sim fS fV fW ts ts' I f f' Hf a x0 x0' k Hs) as Hr.
               assert (Da : a = UnboundedSums \/ a <> UnboundedSums) by (destruct a; (left; reflexivity) || (right; discriminate)).
               destruct Da as [->|Da].
               ++ destruct it0; [reflexivity|reflexivity|]. rewrite !denote_ranks. apply linked_denote. destruct Hr as [Hr1 Hr2].
                  split; intros z Hz; cbn [ranks fst snd]; f_equal; [exact (rrank_sim _ _ _ _ _ I _ _ Hr1 z Hz)|exact (rrank_simC _ _ _ _ _ I _ _ Hr2 z Hz)].
               ++ rewrite !(final_plain a) by exact Da. now apply linked_denote.
            -- intros it0 k. destruct (C k) as (-> & -> & _). destruct (C' k) as (-> & -> & _). symmetry.
               destruct (compared_sim fS fV fW ts ts' I f f' Hf a _ _ (rounds_sim fS fV fW ts ts' I f f' Hf a x0 x0' k Hs)) as [H1 H2].
               exact (compare_sim fS fV fW ts ts' I _ _ _ _ H1 H2 it0).
            -- intros k. destruct (C k) as (_ & _ & ->). destruct (C' k) as (_ & _ & ->). reflexivity.
          * assert (H1' : forall s, In s (sources ts') -> length (claims_of ts' s) = 1%nat).
            { intros s' Hs'. apply (Permutation_in _ (Permutation_sym (iso_src _ _ _ _ _ I))) in Hs'. apply in_map_iff in Hs'. destruct Hs' as (s & <- & Hs1).
              rewrite <- (Permutation_length (claims_of_iso _ _ _ _ _ I s Hs1)), map_length. auto. }
            assert (Sc : forall j, scores AverageLog d (denote ts x0) (Datatypes.S j) = (nans (sources ts), nans (claims ts))).
            { induction j as [|j IH]; cbn [scores] in *.
              - now rewrite (avlog_single_round0 ts (real_imp f) d R0 NE x0 H1).
              - rewrite IH. now rewrite (avlog_nan_round ts (real_imp f) d R0 NE). }
            assert (Sc' : forall j, scores AverageLog d' (denote ts' x0') (Datatypes.S j) = (nans (sources ts'), nans (claims ts'))).
            { induction j as [|j IH]; cbn [scores] in *.
              - now rewrite (avlog_single_round0 ts' (real_imp f') d' R0' NE' x0' H1').
              - rewrite IH. now rewrite (avlog_nan_round ts' (real_imp f') d' R0' NE'). }
            assert (EN : nans (sources ts) = nans (sources ts')) by (unfold nans; rewrite <- !repeat_map, (src_count _ _ _ _ _ I); reflexivity).
            assert (EZ : tvec ts (fst x0) = tvec ts' (fst x0')).
            { cbn in E0, E0'. destruct (prior_spec ts p); [|discriminate]. destruct (prior_spec ts' p); [|discriminate]. injection E0 as <-. injection E0' as <-.
              cbn [fst]. unfold tvec. rewrite <- !repeat_map, (src_count _ _ _ _ _ I). reflexivity. }
            apply (outcome clock fuel AverageLog p it lg lg' (denote ts x0) (denote ts' x0') NE Ei Ei').
            -- intros it0 k. cbn [final]. destruct k as [|k]; [cbn [scores]; now apply linked_denote|]. rewrite Sc, Sc'. apply linked_nans.
            -- intros it0 k. unfold cmp1, cmp2. destruct k as [|k].
               ++ cbn [scores]. rewrite (avlog_single_round0 ts (real_imp f) d R0 NE x0 H1), (avlog_single_round0 ts' (real_imp f') d' R0' NE' x0' H1'). now rewrite EN, EZ.
               ++ rewrite Sc, Sc', (avlog_nan_round ts (real_imp f) d R0 NE), (avlog_nan_round ts' (real_imp f') d' R0' NE'). now rewrite EN.
            -- intros k. unfold stops. destruct k as [|k].
               ++ cbn [scores]. rewrite (avlog_single_round0 ts (real_imp f) d R0 NE x0 H1), (avlog_single_round0 ts' (real_imp f') d' R0' NE' x0' H1'). reflexivity.
               ++ rewrite Sc, Sc', (avlog_nan_round ts (real_imp f) d R0 NE), (avlog_nan_round ts' (real_imp f') d' R0' NE'). reflexivity.
        + set (a := TruthFinder (Fin rho) (Fin gamma) (Fin 1)). set (x0 := (((fun _ => 1), (fun _ => 0)) : @rscores S V W)). set (x0' := (((fun _ => 1), (fun _ => 0)) : @rscores S' V' W')).
          assert (Ei : init a p d = Some (denote ts x0)) by (rewrite (init_rep ts (real_imp f) d R0 NE a p); [reflexivity|eexists; reflexivity]).
          assert (Ei' : init a p d' = Some (denote ts' x0')) by (rewrite (init_rep ts' (real_imp f') d' R0' NE' a p); [reflexivity|eexists; reflexivity]).
          assert (Br : round a d (denote ts x0) = UBreak).
          { cbn [round a]. unfold tf_upd, denote, get_log_trust. cbn [fst snd]. unfold tvec. pose proof (src_ne ts NE) as N. destruct (sources ts); [congruence|].
            cbn. rewrite reqb_refl. reflexivity. }
          assert (Br' : round a d' (denote ts' x0') = UBreak).
          { cbn [round a]. unfold tf_upd, denote, get_log_trust. cbn [fst snd]. unfold tvec. pose proof (src_ne ts' NE') as N. destruct (sources ts'); [congruence|].
            cbn. rewrite reqb_refl. reflexivity. }
          assert (Sc : forall k, scores a d (denote ts x0) k = denote ts x0) by (induction k as [|k IH]; [reflexivity|]; cbn [scores]; rewrite IH, Br; reflexivity).
          assert (Sc' : forall k, scores a d' (denote ts' x0') k = denote ts' x0') by (induction k as [|k IH]; [reflexivity|]; cbn [scores]; rewrite IH, Br'; reflexivity).
          apply (outcome clock fuel a p it lg lg' _ _ NE Ei Ei').
          * intros it0 k. rewrite Sc, Sc'. cbn [final a]. apply linked_denote. split; intros z _; reflexivity.
          * intros it0 k. unfold cmp1, cmp2. now rewrite Sc, Sc', Br, Br'.
          * intros k. unfold stops. now rewrite Sc, Sc', Br, Br'.
    Qed.
    Theorem iso_voting clock : same_outcome (voting_run clock d) (voting_run clock d').
    Proof.
      assert (D : ts = [] \/ ts <> []) by (destruct ts; [left; reflexivity|right; discriminate]). destruct D as [Z|NE].
      - assert (Z' : ts' = []).
        { apply sources_nil. pose proof (iso_src _ _ _ _ _ I) as P. rewrite Z in P. cbn in P. now apply Permutation_nil in P. }
        assert (N : num_claims d = 0%nat) by (rewrite (rep_nc _ _ _ R0), Z; reflexivity). assert (N' : num_claims d' = 0%nat) by (rewrite (rep_nc _ _ _ R0'), Z'; reflexivity).
        unfold voting_run. rewrite N, N'. reflexivity.
      - pose proof (ne_iff NE) as NE'.
        assert (T : forall {S0 V0 W0} {E1 : Eqb S0} {E2 : Eqb V0} {E3 : Eqb W0} (l : list (S0 * V0 * W0)) g b0 (d0 : dataset S0 V0 W0 XR) r, build b0 (real_imp g) l = Ok d0 ->
          voting_run clock d0 = Ok r -> r_time r = n_sub (clock 1%nat) (clock 0%nat)).
        { intros. unfold voting_run in *. destruct (Nat.eqb (num_claims d0) 0); [discriminate|]. destruct (npmax _); [|discriminate].
          destruct (get_source_trust_dict d0 _); [|discriminate]. destruct (get_belief_dict d0 _); [|discriminate]. match goal with H : Ok _ = Ok _ |- _ => injection H as <- end. reflexivity. }
        destruct (C31_voting b f ts d Hb clock NE) as (r & E & Er & Rr). destruct (C31_voting b' f' ts' d' Hb' clock NE') as (r' & E' & Er' & Rr').
        pose proof (T _ _ _ _ _ _ ts f b d r Hb E) as T1. pose proof (T _ _ _ _ _ _ ts' f' b' d' r' Hb' E') as T2.
        rewrite E, E'. cbn [same_outcome]. eapply reports_same; [exact Rr|exact Rr'| | |exact (eq_trans Er' (eq_sym Er))|exact (eq_trans T2 (eq_sym T1))].
        + intros s Hs. reflexivity.
        + intros c Hc. cbn [fst snd]. f_equal. rewrite (n_supporters_sim fS fV fW ts ts' I c Hc), (rmax_cl fS fV fW ts ts' I _ _ (n_supporters_sim fS fV fW ts ts' I)). reflexivity.
    Qed.
  End Two.

  (** ** Renamings and rearrangements *)
  Lemma iso_of_says ts ts1 ts2 : iso fS fV fW ts ts1 -> (forall s c, says ts2 s c = says ts1 s c) -> iso fS fV fW ts ts2.
  Proof.
    intros I E. split.
    - transitivity (sources ts1); [apply I|]. apply NoDup_Permutation; try apply sources_NoDup. intros s. split; intros H; apply source_claims in H; destruct H as (c & _ & H).
      + rewrite <- E in H. now apply says_source in H.
      + rewrite E in H. now apply says_source in H.
    - transitivity (claims ts1); [apply I|]. apply NoDup_Permutation; try apply claims_NoDup. intros c. rewrite !claims_In. split; intros (s & H); exists s; congruence.
    - intros s c Hs Hc. rewrite E. now apply (iso_says _ _ _ _ _ I).
    - apply (iso_var _ _ _ _ _ I).
  Qed.
  Hypothesis iS : forall s s', fS s = fS s' -> s = s'.
  Hypothesis iV : forall s s', fV s = fV s' -> s = s'.
  Hypothesis iW : forall s s', fW s = fW s' -> s = s'.
  Lemma fC_inj' c c' : fC fV fW c = fC fV fW c' -> c = c'.
  Proof. destruct c, c'. unfold fC. cbn. intros [= E1 E2]. f_equal; auto. Qed.
  Lemma first_claim_rename ts s x : first_claim (map rename ts) (fS s) (fV x) = option_map fW (first_claim ts s x).
  Proof.
    unfold first_claim. induction ts as [|t ts IH]; [reflexivity|]. cbn [map find]. change (t_src (rename t)) with (fS (t_src t)). change (t_var (rename t)) with (fV (t_var t)).
    assert (E1 : beq (fS (t_src t)) (fS s) = beq (t_src t) s) by (destruct (beq_spec (fS (t_src t)) (fS s)), (beq_spec (t_src t) s); try reflexivity; exfalso; [|subst]; auto).
    assert (E2 : beq (fV (t_var t)) (fV x) = beq (t_var t) x) by (destruct (beq_spec (fV (t_var t)) (fV x)), (beq_spec (t_var t) x); try reflexivity; exfalso; [|subst]; auto).
    rewrite E1, E2. destruct (beq (t_src t) s && beq (t_var t) x); [reflexivity|exact IH].
  Qed.
  Lemma says_rename ts s c : says (map rename ts) (fS s) (fC fV fW c) = says ts s c.
  Proof.
    unfold says. cbn [fC fst snd]. rewrite first_claim_rename. destruct (first_claim ts s (fst c)) as [w|]; cbn [option_map].
    - destruct (beq_spec (Some (fW w)) (Some (fW (snd c)))) as [E|N], (beq_spec (Some w) (Some (snd c))) as [E'|N']; try reflexivity; exfalso.
      + apply N'. injection E as E. f_equal. auto.
      + apply N. injection E' as ->. reflexivity.
    - reflexivity.
  Qed.
  Lemma iso_rename ts : iso fS fV fW ts (map rename ts).
  Proof.
    assert (Sr : forall s', In s' (sources (map rename ts)) <-> exists s, s' = fS s /\ In s (sources ts)).
    { intros s'. rewrite sources_In. split.
      - intros (x & v & H). apply in_map_iff in H. destruct H as ([[s0 x0] v0] & E & H). injection E as <- _ _. exists s0. split; [reflexivity|]. apply sources_In. eauto.
      - intros (s & -> & H). apply sources_In in H. destruct H as (x & v & H). exists (fV x), (fW v). apply in_map_iff. exists (s, x, v). auto. }
    split.
    - apply NoDup_Permutation; [apply FinFun.Injective_map_NoDup; [exact iS|apply sources_NoDup]|apply sources_NoDup|].
      intros s'. rewrite Sr, in_map_iff. split; intros (s & E & H); exists s; auto.
    - apply NoDup_Permutation; [apply FinFun.Injective_map_NoDup; [exact fC_inj'|apply claims_NoDup]|apply claims_NoDup|].
      intros c'. rewrite in_map_iff, claims_In. split.
      + intros (c & <- & H). apply claims_In in H. destruct H as (s & H). exists (fS s). now rewrite says_rename.
      + intros (s' & H). pose proof H as H'. apply says_true, first_claim_In in H'. apply in_map_iff in H'. destruct H' as ([[s0 x0] v0] & E & Hin).
        injection E as E1 E2 E3. exists (x0, v0). assert (Ec : fC fV fW (x0, v0) = c') by (destruct c'; unfold fC; cbn in *; congruence). split; [exact Ec|].
        rewrite <- Ec, <- E1 in H. cbn [t_src fst snd] in H. rewrite says_rename in H. apply claims_In. eauto.
    - intros s c _ _. apply says_rename.
    - intros c c' _ _. apply iV.
  Qed.

  Lemma sv_rename ts : NoDup (sv_pairs ts) -> NoDup (sv_pairs (map rename ts)).
  Proof.
    intros ND. unfold sv_pairs. rewrite map_map. change (NoDup (map (fun t => (fS (fst (fst t)), fV (snd (fst t)))) ts)).
    rewrite <- (map_map fst (fun q : S * V => (fS (fst q), fV (snd q)))). apply FinFun.Injective_map_NoDup; [|exact ND].
    intros [s1 x1] [s2 x2] [= E1 E2]. f_equal; auto.
  Qed.
  Lemma iso_perm ts ts' : NoDup (sv_pairs ts) -> Permutation (map rename ts) ts' -> iso fS fV fW ts ts'.
  Proof.
    intros ND P. apply (iso_of_says ts (map rename ts)); [apply iso_rename|]. intros s c. pose proof (sv_rename ts ND) as ND1.
    assert (ND2 : NoDup (sv_pairs ts')) by (unfold sv_pairs in *; refine (Permutation_NoDup _ ND1); now apply Permutation_map).
    destruct (says ts' s c) eqn:E1, (says (map rename ts) s c) eqn:E2; try reflexivity; exfalso.
    - apply says_true, first_claim_In in E1. apply (Permutation_in _ (Permutation_sym P)) in E1. apply (first_claim_NoDup _ _ _ _ ND1) in E1. apply says_true in E1. congruence.
    - apply says_true, first_claim_In in E2. apply (Permutation_in _ P) in E2. apply (first_claim_NoDup _ _ _ _ ND2) in E2. apply says_true in E2. congruence.
  Qed.
  (** A renamed and reordered list of triples is accepted if the original one is. *)
  Theorem C41_accepted (ts : list (S * V * W)) (ts' : list (S' * V' * W')) b f f' d : same_implications fV fW f f' ->
    build (F:=XR) b (real_imp f) ts = Ok d -> NoDup (sv_pairs ts) -> Permutation (map rename ts) ts' -> exists d' : dataset S' V' W' XR, build b (real_imp f') ts' = Ok d'.
  Proof.
    intros Hf Hb ND P. pose proof (iso_perm ts ts' ND P) as I.
    assert (Hi : imp_all_ok ts (real_imp f)).
    { destruct b.
      - destruct (build_allow (F:=XR) (real_imp f) ts) as [[H _]|[_ E]]; [exact H|congruence].
      - destruct (build_strict (F:=XR) (real_imp f) ts) as [(_ & H & _)|[(_ & _ & E)|(s & x & _ & E)]]; [exact H|congruence|congruence]. }
    assert (Hi' : imp_all_ok ts' (real_imp f')).
    { intros c1 c2 q H1 H2 E. apply (Permutation_in _ (Permutation_sym (iso_cl _ _ _ _ _ I))) in H1, H2. apply in_map_iff in H1, H2.
      destruct H1 as (a1 & <- & H1), H2 as (a2 & <- & H2). apply (Hi a1 a2 q H1 H2). rewrite <- E. unfold imp_val.
      rewrite (beq_fV _ _ _ _ _ I a1 a2 H1 H2), (beq_fC _ _ _ _ _ I a1 a2 H1 H2). destruct (beq (fst a1) (fst a2) && negb (beq a1 a2)); [|reflexivity].
      unfold same_implications in Hf. destruct f as [g|], f' as [g'|]; try contradiction; [|reflexivity]. cbn. now rewrite Hf. }
    destruct b.
    - destruct (build_allow (F:=XR) (real_imp f') ts') as [(_ & d' & E & _)|[N _]]; [eauto|contradiction].
    - apply (C02_strict_accepts_iff (F:=XR) (real_imp f') ts' Hi'). unfold sv_pairs in *. refine (Permutation_NoDup (Permutation_map fst P) (sv_rename _ ND)).
  Qed.

  Section Main.
    Variables (ts : list (S * V * W)) (ts' : list (S' * V' * W')).
    Variables (b b' : bool) (f : option (V -> W -> W -> option R)) (f' : option (V' -> W' -> W' -> option R)).
    Variables (d : dataset S V W XR) (d' : dataset S' V' W' XR).
    Hypothesis Hb : build b (real_imp f) ts = Ok d.
    Hypothesis Hb' : build b' (real_imp f') ts' = Ok d'.
    Hypothesis Hf : same_implications fV fW f f'.
    (** One-to-one renaming and reordering of the triples (a source claims one value per variable). *)
    Theorem C41_rename_and_permute clock fuel a p it lg lg' : NoDup (sv_pairs ts) -> Permutation (map rename ts) ts' -> covered a ->
      same_outcome (fst (run clock fuel (AObj a p it lg) d)) (fst (run clock fuel (AObj a p it lg') d')) /\
      same_outcome (voting_run clock d) (voting_run clock d').
    Proof.
      intros ND P Ha. pose proof (iso_perm ts ts' ND P) as I.
      split; [now apply (iso_same_outcome ts ts' I b b' f f' d d' Hb Hb' Hf)|now apply (iso_voting ts ts' I b b' f f' d d' Hb Hb')].
    Qed.
    (** Renaming alone needs no assumption on repeated (source, variable) pairs; more generally any list in which the renamed sources
        make the renamed claims. *)
    Theorem C41_rename clock fuel a p it lg lg' : (forall s c, says ts' s c = says (map rename ts) s c) -> covered a ->
      same_outcome (fst (run clock fuel (AObj a p it lg) d)) (fst (run clock fuel (AObj a p it lg') d')) /\
      same_outcome (voting_run clock d) (voting_run clock d').
    Proof.
      intros P Ha. assert (I : iso fS fV fW ts ts') by (apply (iso_of_says ts (map rename ts)); [apply iso_rename|exact P]).
      split; [now apply (iso_same_outcome ts ts' I b b' f f' d d' Hb Hb' Hf)|now apply (iso_voting ts ts' I b b' f f' d d' Hb Hb')].
    Qed.
  End Main.
End Sym.

(** ** Non-vacuity *)
Module SymExamples.
  Import AlgExamples.
  Definition fs (n : nat) : bool * nat := (true, n).
  Definition vs2' : list ((bool * nat) * nat * nat) := [(fs 3, 8, 5); (fs 3, 1, 4); (fs 2, 1, 5); (fs 1, 1, 5)]%nat.
  Definition fw (n : nat) : nat := match n with 1 => 5 | 2 => 4 | _ => n + 10 end%nat.
  Example renaming : (forall s s', fs s = fs s' -> s = s') /\ (forall x x', Datatypes.S x = Datatypes.S x' -> x = x') /\ (forall w w', fw w = fw w' -> w = w') /\
    Permutation (map (rename fs Datatypes.S fw) vs2) vs2' /\ NoDup (sv_pairs vs2).
  Proof.
    split; [intros s s' [=]; assumption|]. split; [intros x x' [=]; assumption|]. split.
    - intros w w'. destruct w as [|[|[|w]]], w' as [|[|[|w']]]; cbn; lia.
    - split; [|unfold vs2, sv_pairs; cbn; repeat constructor; cbn; intuition congruence].
      cbn. unfold vs2'. etransitivity; [|apply Permutation_sym, Permutation_rev]. cbn. reflexivity.
  Qed.
  (* every algorithm returns on both *)
  Example both_return : exists (d : dataset nat nat nat XR) (d' : dataset (bool * nat) nat nat XR),
    build false (real_imp None) vs2 = Ok d /\ build false (real_imp None) vs2' = Ok d' /\
    forall a, covered a -> a <> UnboundedSums -> exists r r', fst (run (fun _ => Fin 0) 8 (AObj a FIXED (IFixed 7 3) None) d) = Ok r /\
      fst (run (fun _ => Fin 0) 8 (AObj a FIXED (IFixed 7 3) None) d') = Ok r' /\ same_results fs Datatypes.S fw r r'.
  Proof.
    destruct renaming as (i1 & i2 & i3 & P & ND). destruct runs as (d & E & H).
    destruct (C41_accepted fs Datatypes.S fw i1 i2 i3 vs2 vs2' false None None d Logic.I E ND P) as (d' & E'). exists d, d'.
    split; [exact E|]. split; [exact E'|]. intros a Hc Ha. destruct (H a Ha) as (r & o' & Er).
    pose proof (proj1 (C41_rename_and_permute fs Datatypes.S fw i1 i2 i3 vs2 vs2' false false None None d d' E E' Logic.I (fun _ => Fin 0) 8 a FIXED (IFixed 7 3) None None ND P Hc)) as Q.
    rewrite Er in Q. cbn [fst same_outcome] in Q. exists r. destruct (fst (run _ _ _ d')) as [r'|] eqn:Er'; [|contradiction].
    exists r'. rewrite Er. auto.
  Qed.
End SymExamples.

(** Limits: with [allow_multiple], when a source claims several values for a variable the order does matter (the first one counts). *)
Theorem C41_order_matters_for_repeated_claims : exists (ts ts' : list (nat * nat * nat)) (d d' : dataset nat nat nat XR) r r',
  Permutation ts ts' /\ build true (real_imp None) ts = Ok d /\ build true (real_imp None) ts' = Ok d' /\
  voting_run (fun _ => Fin 0) d = Ok r /\ voting_run (fun _ => Fin 0) d' = Ok r' /\ belief_of r (0, 1)%nat = Some (Fin 1) /\ belief_of r' (0, 1)%nat = None.
Proof.
  set (ts := [(1, 0, 1); (1, 0, 2)]%nat). set (ts' := [(1, 0, 2); (1, 0, 1)]%nat).
  assert (B : forall l : list (nat * nat * nat), exists d : dataset nat nat nat XR, build true (real_imp None) l = Ok d).
  { intros l. destruct (build_allow (F:=XR) (real_imp None) l) as [(_ & d & E & _)|[N _]]; [eauto|]. exfalso. apply N. intros c c' q _ _ H. unfold imp_val in H. destruct (_ && _); discriminate. }
  destruct (B ts) as [d E]. destruct (B ts') as [d' E'].
  destruct (C31_voting true None ts d E (fun _ => Fin 0) ltac:(discriminate)) as (r & Er & _ & Rr).
  destruct (C31_voting true None ts' d' E' (fun _ => Fin 0) ltac:(discriminate)) as (r' & Er' & _ & Rr').
  exists ts, ts', d, d', r, r'. split; [apply perm_swap|]. do 4 (split; [assumption|]). split.
  - destruct Rr as (_ & Rb & _). rewrite Rb. cbn. do 2 f_equal. unfold rmax. cbn. unfold n_supporters. cbn. lra.
  - destruct Rr' as (_ & Rb & _). rewrite Rb. reflexivity.
Qed.
