(** C72: in every arithmetic, in particular in IEEE doubles, labels are only names and ignored claims leave no trace: renaming labels, or
    removing the repeated claims that allow_multiple ignores, gives exactly the same numbers. *)
From Verif Require Import Base Num Sparse Spec SpecAlg Dataset DatasetProofs DatasetRep Iterators Algorithms Driver Rounds AlgPack PropsData PropsRun Float PropsFloat.
From Flocq Require Import IEEE754.BinarySingleNaN.
From Coq Require Import Permutation.

(** ** Specification *)
(** the triples without those whose (source, variable) pair occurred before *)
Fixpoint drop_repeats {S V W} {ES : Eqb S} {EV : Eqb V} (seen : list (S * V)) (ts : list (S * V * W)) : list (S * V * W) :=
  match ts with
  | [] => []
  | t :: l => if mem (fst t) seen then drop_repeats seen l else t :: drop_repeats (fst t :: seen) l
  end.
Section Renaming.
  Context {S V W S' V' W' : Type}.
  Variables (fS : S -> S') (fV : V -> V') (fW : V -> W -> W').
  (** values are renamed variable by variable *)
  Definition rename_triple (t : S * V * W) : S' * V' * W' := (fS (fst (fst t)), fV (snd (fst t)), fW (snd (fst t)) (snd t)).
  Definition rename_result {T} (r : result S V W T) : result S' V' W' T :=
    Result (map (fun p => (fS (fst p), snd p)) (r_trust r))
           (map (fun p => (fV (fst p), map (fun q => (fW (fst p) (fst q), snd q)) (snd p))) (r_belief r)) (r_time r) (r_iterations r).
  Definition map_ok {E A B} (f : A -> B) (r : res E A) : res E B := match r with Ok a => Ok (f a) | Err e => Err e end.
End Renaming.

(** ** Matrices with the same entries *)
Section Same.
  Context {F : Num}.
  Definition meq (A B : mat F) : Prop := m_rows A = m_rows B /\ m_cols A = m_cols B /\
    forall i j, i < m_rows A -> j < m_cols A -> m_stored A i j = m_stored B i j /\ (m_stored A i j = true -> m_entry A i j = m_entry B i j).
  Lemma fold_ext {X} (f g : F -> X -> F) l : (forall a x, In x l -> f a x = g a x) -> forall a, fold_left f l a = fold_left g l a.
  Proof. induction l as [|x l IH]; intros H a; cbn; [reflexivity|]. rewrite H by now left. apply IH. intros; apply H; now right. Qed.
  Lemma meq_mtr A B : meq A B -> meq (mtr A) (mtr B).
  Proof. intros (R & C & H). split; [exact C|split; [exact R|]]. intros i j Hi Hj. cbn in *. now apply H. Qed.
  Lemma meq_mv A B x : meq A B -> mv A x = mv B x.
  Proof.
    intros (R & C & H). unfold mv. rewrite <- R, <- C. apply map_ext_in. intros i Hi. apply in_seq in Hi.
    assert (E : filter (m_stored A i) (seq 0 (m_cols A)) = filter (m_stored B i) (seq 0 (m_cols A))). { apply filter_ext_in. intros j Hj. apply in_seq in Hj. apply H; lia. }
    rewrite <- E. apply fold_ext. intros a j Hj. apply filter_In in Hj. destruct Hj as [Hj Sj]. apply in_seq in Hj. destruct (H i j) as [_ He]; [lia|lia|]. now rewrite He.
  Qed.
  Lemma meq_mmulc A B v : meq A B -> meq (mmulc A v) (mmulc B v).
  Proof. intros (R & C & H). split; [exact R|split; [exact C|]]. intros i j Hi Hj. cbn in *. destruct (H i j Hi Hj) as [H1 H2]. split; [exact H1|]. intros Q. now rewrite H2. Qed.
  Lemma meq_smul A B v : meq A B -> meq (smul v A) (smul v B).
  Proof. intros (R & C & H). split; [exact R|split; [exact C|]]. intros i j Hi Hj. cbn in *. destruct (H i j Hi Hj) as [H1 H2]. split; [exact H1|]. intros Q. now rewrite H2. Qed.
  Lemma existsb_ext_in {X} (p q : X -> bool) l : (forall x, In x l -> p x = q x) -> existsb p l = existsb q l.
  Proof. induction l as [|x l IH]; intros H; cbn; [reflexivity|]. rewrite H by now left. now rewrite IH by (intros; apply H; now right). Qed.
  Lemma meq_mm A B A' B' : meq A A' -> meq B B' -> m_cols A = m_rows B -> meq (mm A B) (mm A' B').
  Proof.
    intros (R & C & H) (R' & C' & H') CR. split; [exact R|split; [exact C'|]]. intros i k Hi Hk. cbn in Hi, Hk.
    assert (P : forall j, In j (seq 0 (m_cols A)) -> m_stored A i j && m_stored B j k = m_stored A' i j && m_stored B' j k).
    { intros j Hj. apply in_seq in Hj. destruct (H i j) as [-> _]; [lia|lia|]. destruct (H' j k) as [-> _]; [lia|lia|]. reflexivity. }
    cbn. rewrite <- C. split; [now apply existsb_ext_in|]. intros _. rewrite <- (filter_ext_in _ _ _ P). apply fold_ext. intros a j Hj. apply filter_In in Hj. destruct Hj as [Hj Sj]. apply in_seq in Hj. apply andb_true_iff in Sj. destruct Sj as [S1 S2].
    destruct (H i j) as [_ E1]; [lia|lia|]. destruct (H' j k) as [_ E2]; [lia|lia|]. now rewrite E1, E2.
  Qed.
  Lemma meq_madd A B A' B' : meq A A' -> meq B B' -> m_rows A = m_rows B -> m_cols A = m_cols B -> meq (madd A B) (madd A' B').
  Proof.
    intros (R & C & H) (R' & C' & H') RR CC. split; [exact R|split; [exact C|]]. intros i j Hi Hj. cbn in Hi, Hj. destruct (H i j) as [S1 E1]; [lia|lia|]. destruct (H' i j) as [S2 E2]; [lia|lia|].
    cbn. rewrite <- S1, <- S2. destruct (m_stored A i j), (m_stored B i j); cbn; rewrite ?E1, ?E2 by reflexivity; auto.
  Qed.
  Lemma mrep_meq {X Y X' Y'} (A B : mat F) (f : X -> X') (g : Y -> Y') R C rel ent rel' ent' : mrep A R C rel ent -> mrep B (map f R) (map g C) rel' ent' ->
    (forall x y, In x R -> In y C -> rel' (f x) (g y) = rel x y /\ (rel x y = true -> ent' (f x) (g y) = ent x y)) -> meq A B.
  Proof.
    intros (R1 & C1 & H1) (R2 & C2 & H2) H. rewrite map_length in R2, C2. split; [congruence|split; [congruence|]]. intros i j Hi Hj. rewrite R1 in Hi. rewrite C1 in Hj.
    destruct (nth_error R i) as [x|] eqn:Ex; [|apply nth_error_None in Ex; lia]. destruct (nth_error C j) as [y|] eqn:Ey; [|apply nth_error_None in Ey; lia].
    destruct (H1 i j x y Ex Ey) as [S1 E1]. destruct (H2 i j (f x) (g y)) as [S2 E2]; [now rewrite nth_error_map, Ex|now rewrite nth_error_map, Ey|].
    destruct (H x y (nth_error_In _ _ Ex) (nth_error_In _ _ Ey)) as [Hr He]. rewrite S1, S2, Hr. split; [reflexivity|]. intros T. rewrite E1, E2, He by congruence. reflexivity.
  Qed.
End Same.

(** ** Two datasets whose sources and claims correspond *)
Section Aligned.
  Context {S V W S' V' W' : Type} {ES : Eqb S} {EV : Eqb V} {EW : Eqb W} {ES' : Eqb S'} {EV' : Eqb V'} {EW' : Eqb W'} {F : Num} {FOK : NumOK F}.
  Variables (fS : S -> S') (fV : V -> V') (fW : V -> W -> W').
  Notation claim := (V * W)%type.
  Definition fC2 (c : claim) : V' * W' := (fV (fst c), fW (fst c) (snd c)).
  Variables (ts : list (S * V * W)) (ts' : list (S' * V' * W')).
  Variables (impf : option (V -> W -> W -> option F)) (impf' : option (V' -> W' -> W' -> option F)).
  Record aligned : Prop := {
    al_src : sources ts' = map fS (sources ts);
    al_cl : claims ts' = map fC2 (claims ts);
    al_says : forall s c, In s (sources ts) -> In c (claims ts) -> says ts' (fS s) (fC2 c) = says ts s c;
    al_S : forall s s', In s (sources ts) -> In s' (sources ts) -> fS s = fS s' -> s = s';
    al_V : forall c c', In c (claims ts) -> In c' (claims ts) -> fV (fst c) = fV (fst c') -> fst c = fst c';
    al_C : forall c c', In c (claims ts) -> In c' (claims ts) -> fC2 c = fC2 c' -> c = c';
    al_imp : forall c c', In c (claims ts) -> In c' (claims ts) -> fst c = fst c' -> c <> c' ->
      match impf', impf with Some g', Some g => g' (fV (fst c)) (fW (fst c) (snd c)) (fW (fst c) (snd c')) = g (fst c) (snd c) (snd c') | None, None => True | _, _ => False end
  }.
  Hypothesis AL : aligned.

  Lemma al_beqV c c' : In c (claims ts) -> In c' (claims ts) -> beq (fV (fst c)) (fV (fst c')) = beq (fst c) (fst c').
  Proof.
    intros H H'. destruct (beq_spec (fst c) (fst c')) as [E|E]; [rewrite E; apply beq_refl|]. destruct (beq_spec (fV (fst c)) (fV (fst c'))) as [Q|Q]; [|reflexivity]. exfalso. apply E. now apply (al_V AL).
  Qed.
  Lemma al_impval c c' : In c (claims ts) -> In c' (claims ts) -> imp_val impf' (fC2 c) (fC2 c') = imp_val impf c c'.
  Proof.
    intros H H'. unfold imp_val. cbn [fC2 fst snd]. rewrite al_beqV by assumption. destruct (beq_spec (fst c) (fst c')) as [E|E]; [|reflexivity]. cbn [andb].
    destruct (beq_spec c c') as [Q|Q].
    - subst c'. rewrite beq_refl. reflexivity.
    - destruct (beq_spec (fC2 c) (fC2 c')) as [Q'|Q']; [exfalso; apply Q; now apply (al_C AL)|]. cbn [negb]. pose proof (al_imp AL c c' H H' E Q) as HI. rewrite <- E. destruct impf' as [g'|], impf as [g|]; try contradiction; [exact HI|reflexivity].
  Qed.
  Variables (d : dataset S V W F) (d' : dataset S' V' W' F).
  Hypothesis R : ds_rep ts impf d.
  Hypothesis R' : ds_rep ts' impf' d'.
  Lemma same_ns : num_sources d' = num_sources d. Proof. rewrite (rep_ns _ _ _ R), (rep_ns _ _ _ R'), (al_src AL). apply map_length. Qed.
  Lemma same_nc : num_claims d' = num_claims d. Proof. rewrite (rep_nc _ _ _ R), (rep_nc _ _ _ R'), (al_cl AL). apply map_length. Qed.
  Lemma same_sc : meq (sc d) (sc d').
  Proof.
    pose proof (rep_sc _ _ _ R') as Q. rewrite (al_src AL), (al_cl AL) in Q. apply (mrep_meq _ _ _ _ _ _ _ _ _ _ (rep_sc _ _ _ R) Q). intros s c Hs Hc. split; [now apply (al_says AL)|reflexivity].
  Qed.
  Lemma same_mut : meq (mut_ex d) (mut_ex d').
  Proof.
    pose proof (rep_mut _ _ _ R') as Q. rewrite (al_cl AL) in Q. apply (mrep_meq _ _ _ _ _ _ _ _ _ _ (rep_mut _ _ _ R) Q). intros c c' Hc Hc'. split; [unfold same_var; cbn [fC2 fst]; now apply al_beqV|reflexivity].
  Qed.
  Lemma same_imp : meq (imp d) (imp d').
  Proof.
    pose proof (rep_imp _ _ _ R') as Q. rewrite (al_cl AL) in Q. apply (mrep_meq _ _ _ _ _ _ _ _ _ _ (rep_imp _ _ _ R) Q). intros c c' Hc Hc'. unfold imp_num. rewrite al_impval by assumption. split; reflexivity.
  Qed.
  Lemma same_source_counts : source_counts d' = source_counts d.
  Proof. unfold source_counts. rewrite same_ns. symmetry. apply meq_mv, meq_mtr, same_sc. Qed.
  Lemma same_claim_counts : claim_counts d' = claim_counts d.
  Proof. unfold claim_counts. rewrite same_nc. symmetry. apply meq_mv, same_sc. Qed.
  Lemma same_prior p : prior_beliefs p d' = prior_beliefs p d.
  Proof. unfold prior_beliefs. rewrite same_source_counts, same_nc, <- !(meq_mv _ _ _ same_mut). reflexivity. Qed.
  Lemma same_init a p : init a p d' = init a p d.
  Proof. unfold init. rewrite same_prior, same_ns, same_nc, same_source_counts. reflexivity. Qed.
  Lemma same_update_trust t cc b : update_trust t cc (sc d') b = update_trust t cc (sc d) b.
  Proof. unfold update_trust. rewrite <- (meq_mv _ _ _ (meq_mtr _ _ same_sc)). destruct (existsb _ _); [reflexivity|]. now rewrite <- (meq_mv _ _ _ (meq_mmulc _ _ _ same_sc)). Qed.
  Lemma same_loss b s : s < num_sources d -> crh_loss d' b s = crh_loss d b s.
  Proof.
    intros Hs. unfold crh_loss. rewrite same_nc. f_equal. apply map_ext_in. intros j Hj. f_equal. f_equal. apply in_seq in Hj. destruct same_sc as (R1 & C1 & H1). destruct same_mut as (R2 & C2 & H2).
    rewrite (sc_rows ts impf d R) in H1. rewrite (sc_cols ts impf d R) in H1. rewrite (mut_rows ts impf d R) in H2.
    assert (MC : m_cols (mut_ex d) = num_claims d) by (destruct (rep_mut _ _ _ R) as (_ & -> & _); symmetry; apply (rep_nc _ _ _ R)). rewrite MC in H2.
    assert (E : filter (m_stored (sc d') s) (seq 0 (num_claims d)) = filter (m_stored (sc d) s) (seq 0 (num_claims d))). { apply filter_ext_in. intros i Hi. apply in_seq in Hi. symmetry. apply H1; lia. }
    rewrite E. apply map_ext_in. intros i Hi. apply filter_In in Hi. destruct Hi as [Hi Si]. apply in_seq in Hi. destruct (H1 s i Hs ltac:(lia)) as [_ E1]. rewrite (E1 Si). f_equal. unfold crh_z, toarray. destruct (H2 i j ltac:(lia) ltac:(lia)) as [S2 E2]. rewrite <- S2. destruct (m_stored (mut_ex d) i j); [now rewrite E2|reflexivity].
  Qed.
  Lemma same_round a x : round a d' x = round a d x.
  Proof.
    pose proof (fun v => meq_mv _ _ v same_sc) as M1. pose proof (fun v => meq_mv _ _ v (meq_mtr _ _ same_sc)) as M2. pose proof (fun v => meq_mv _ _ v same_mut) as M3.
    destruct x as [t b]. destruct a; cbn [round].
    - unfold sums_upd. now rewrite <- M1, <- M2.
    - unfold avlog_upd, avlog_weights. rewrite same_claim_counts, <- M1, <- M2. reflexivity.
    - unfold inv_upd. rewrite same_claim_counts, same_update_trust. destruct (update_trust _ _ _ _); [|reflexivity]. now rewrite <- M2.
    - unfold pooled_upd. rewrite same_claim_counts, same_update_trust. destruct (update_trust _ _ _ _); [|reflexivity]. now rewrite <- M2, <- M3.
    - unfold tf_upd. destruct (get_log_trust t) as [tau|]; [|reflexivity].
      assert (A : meq (tf_a_mat d) (tf_a_mat d')). { unfold tf_a_mat. rewrite same_claim_counts. apply meq_mtr, meq_mmulc, meq_mtr, same_sc. }
      assert (B : meq (tf_b_mat influence_param d) (tf_b_mat influence_param d')).
      { unfold tf_b_mat. apply meq_madd; [apply meq_mtr, same_sc|apply meq_smul, meq_mm; [apply meq_mtr, same_imp|apply meq_mtr, same_sc|]| |]; cbn.
        - rewrite (imp_rows ts impf d R), (sc_cols ts impf d R). reflexivity.
        - rewrite (sc_cols ts impf d R), (imp_cols ts impf d R). reflexivity.
        - reflexivity. }
      rewrite <- (meq_mv _ _ _ B), <- (meq_mv _ _ _ A). reflexivity.
    - unfold crh_upd. rewrite same_ns. assert (E : map (fun s => n_add eps (crh_loss d' b s)) (seq 0 (num_sources d)) = map (fun s => n_add eps (crh_loss d b s)) (seq 0 (num_sources d))).
      { apply map_ext_in. intros s Hs. apply in_seq in Hs. now rewrite same_loss by lia. }
      rewrite E, <- M2. reflexivity.
    - unfold usums_upd. now rewrite <- M1, <- M2.
  Qed.
  Lemma same_scores a x0 k : scores a d' x0 k = scores a d x0 k.
  Proof. induction k as [|k IH]; cbn [scores]; [reflexivity|]. rewrite IH, same_round. reflexivity. Qed.
  Lemma same_loop a x0 fuel it k : it_loop (cmp1 a d' x0) (cmp2 a d' x0) (stops a d' x0) fuel it k = it_loop (cmp1 a d x0) (cmp2 a d x0) (stops a d x0) fuel it k.
  Proof. apply it_loop_ext; intros; unfold cmp1, cmp2, stops; rewrite ?same_scores, ?same_round; reflexivity. Qed.

  Lemma pos_map {A B} {EA : Eqb A} {EB : Eqb B} (f : A -> B) (l : list A) a : In a l -> (forall a', In a' l -> f a = f a' -> a = a') -> pos (f a) (map f l) = pos a l.
  Proof.
    induction l as [|b l IH]; intros Ha H; [destruct Ha|]. cbn [map pos]. destruct (beq_spec a b) as [->|N]; [now rewrite beq_refl|]. destruct (beq_spec (f a) (f b)) as [E|_]; [exfalso; apply N, H; [now left|exact E]|].
    f_equal. apply IH; [destruct Ha; [congruence|assumption]|]. intros; apply H; [now right|assumption].
  Qed.
  Lemma distinct_map_on {A B} {EA : Eqb A} {EB : Eqb B} (f : A -> B) (l : list A) : (forall a a', In a l -> In a' l -> f a = f a' -> a = a') -> distinct (map f l) = map f (distinct l).
  Proof.
    induction l as [|a l IH]; intros H; [reflexivity|]. cbn [map distinct]. rewrite IH by (intros a0 a' Ha Ha'; apply H; now right). f_equal.
    assert (G : forall m, incl m l -> filter (fun y => negb (beq (f a) y)) (map f m) = map f (filter (fun y => negb (beq a y)) m)).
    { induction m as [|c m IHm]; intros I; [reflexivity|]. cbn [map filter]. rewrite IHm by (intros y Hy; apply I; now right).
      assert (E : beq (f a) (f c) = beq a c). { destruct (beq_spec a c) as [->|N]; [apply beq_refl|]. destruct (beq_spec (f a) (f c)) as [Q|Q]; [|reflexivity]. exfalso. apply N, H; [now left|right; apply I; now left|exact Q]. }
      rewrite E. destruct (beq a c); reflexivity. }
    apply G. intros y Hy. exact (proj1 (distinct_In y l) Hy).
  Qed.
  Lemma same_tdict (v : list F) : tdict ts' v = map (fun p => (fS (fst p), snd p)) (tdict ts v).
  Proof. unfold tdict. rewrite (al_src AL), !map_map. apply map_ext_in. intros s Hs. cbn [fst snd]. rewrite pos_map; [reflexivity|exact Hs|]. intros s' Hs'. now apply (al_S AL). Qed.
  Lemma same_bdict (v : list F) : bdict ts' v = map (fun p => (fV (fst p), map (fun q => (fW (fst p) (fst q), snd q)) (snd p))) (bdict ts v).
  Proof.
    unfold bdict, beliefs_of. rewrite (al_cl AL). rewrite map_map. change (map (fun x => fst (fC2 x)) (claims ts)) with (map (fun x : claim => fV (fst x)) (claims ts)). rewrite <- (map_map fst fV).
    rewrite distinct_map_on. 2:{ intros a a' Ha Ha' E. apply in_map_iff in Ha, Ha'. destruct Ha as (c & <- & Hc), Ha' as (c' & <- & Hc'). now apply (al_V AL). }
    rewrite !map_map. apply map_ext_in. intros x Hx. apply (proj1 (distinct_In _ _)) in Hx. apply in_map_iff in Hx. destruct Hx as (c0 & <- & Hc0). cbn [fst snd]. f_equal.
    unfold scores_of. rewrite map_map.
    assert (Ef : filter (fun c => beq (fst c) (fV (fst c0))) (map fC2 (claims ts)) = map fC2 (filter (fun c => beq (fst c) (fst c0)) (claims ts))).
    { assert (G : forall l, incl l (claims ts) -> filter (fun c => beq (fst c) (fV (fst c0))) (map fC2 l) = map fC2 (filter (fun c => beq (fst c) (fst c0)) l)); [|apply G, incl_refl].
      induction l as [|c l IH]; intros I; [reflexivity|]. cbn [map filter]. change (fst (fC2 c)) with (fV (fst c)). rewrite al_beqV; [|apply I; now left|exact Hc0]. rewrite IH by (intros y Hy; apply I; now right). destruct (beq (fst c) (fst c0)); reflexivity. }
    rewrite Ef, map_map. apply map_ext_in. intros c Hc. apply filter_In in Hc. destruct Hc as [Hc Ec]. apply beq_eq in Ec. cbn [fst snd]. unfold fC2 at 1. cbn [snd]. rewrite <- Ec. f_equal. rewrite pos_map; [reflexivity|exact Hc|]. intros c' Hc' Q. now apply (al_C AL).
  Qed.
  Lemma nil_iff : ts' = [] <-> ts = [].
  Proof.
    pose proof (al_src AL) as E. split; intros H; rewrite H in E; cbn in E.
    - symmetry in E. apply map_eq_nil in E. destruct ts as [|t l]; [reflexivity|discriminate E].
    - destruct ts' as [|t l]; [reflexivity|discriminate E].
  Qed.
  Lemma nil_or {X} (l : list X) : l = [] \/ l <> []. Proof. destruct l; [now left|now right]. Qed.
  Lemma empty_nc : ts = [] -> num_claims d = 0. Proof. intros H. rewrite (rep_nc _ _ _ R). rewrite H. reflexivity. Qed.
  Theorem aligned_run clock fuel a p it lg lg' : fst (run clock fuel (AObj a p it lg') d') = map_ok (rename_result fS fV fW) (fst (run clock fuel (AObj a p it lg) d)).
  Proof.
    destruct (nil_or ts) as [Z|NE].
    - unfold run. rewrite same_nc, (empty_nc Z). reflexivity.
    - assert (NE' : ts' <> []) by (intros Q; apply nil_iff in Q; congruence).
      rewrite (run_char clock ts impf d R NE), (run_char clock ts' impf' d' R' NE'), same_init. destruct (init a p d) as [x0|]; [|reflexivity]. rewrite same_loop. destruct (it_loop _ _ _ fuel (reset it) 0) as [[r k] it'].
      cbn [fst]. destruct r; [|reflexivity]. rewrite same_scores. destruct (final a it' (scores a d x0 k)); [|reflexivity]. cbn [map_ok]. unfold rename_result. cbn [r_trust r_belief r_time r_iterations]. now rewrite same_tdict, same_bdict.
  Qed.
  Theorem aligned_run_iter clock fuel a p it lg lg' : fst (run_iter clock fuel (AObj a p it lg') d') = map_ok (map (rename_result fS fV fW)) (fst (run_iter clock fuel (AObj a p it lg) d)).
  Proof.
    destruct (nil_or ts) as [Z|NE].
    - unfold run_iter. rewrite same_nc, (empty_nc Z). reflexivity.
    - assert (NE' : ts' <> []) by (intros Q; apply nil_iff in Q; congruence).
      rewrite (run_iter_char clock ts impf d R NE), (run_iter_char clock ts' impf' d' R' NE'), same_init. destruct (init a p d) as [x0|]; [|reflexivity]. rewrite same_loop. destruct (it_loop _ _ _ fuel (reset it) 0) as [[r k] it'].
      cbn [fst]. destruct r; [|reflexivity]. rewrite same_scores. destruct (final a it' (scores a d x0 k)); [|reflexivity]. cbn [map_ok]. f_equal.
      assert (P : forall n j, partial_result clock ts' d' a x0 n j = rename_result fS fV fW (partial_result clock ts d a x0 n j)). { intros n j. unfold partial_result, rename_result. cbn [r_trust r_belief r_time r_iterations]. now rewrite same_scores, same_tdict, same_bdict. }
      unfold partial_results, initial_log. destruct (logs_initial a); cbn [length app]; [cbn [map]; rewrite P; f_equal|]; rewrite map_map; apply map_ext; intros; apply P.
  Qed.
  Theorem aligned_voting clock : voting_run clock d' = map_ok (rename_result fS fV fW) (voting_run clock d).
  Proof.
    unfold voting_run. rewrite same_nc, same_source_counts, same_ns. destruct (Nat.eqb_spec (num_claims d) 0) as [Z|Z]; [reflexivity|].
    destruct (npmax (source_counts d)) as [m|]; [|reflexivity].
    rewrite (trust_dict_vec ts impf d R), (trust_dict_vec ts' impf' d' R'), (belief_dict_vec ts impf d R), (belief_dict_vec ts' impf' d' R'); rewrite ?same_ns, ?same_nc, ?vdivs_length; try apply repeat_length; try exact (source_counts_length ts impf d R).
    cbn [map_ok]. unfold rename_result. cbn [r_trust r_belief r_time r_iterations]. now rewrite same_tdict, same_bdict.
  Qed.
End Aligned.

(** ** Renamed data *)
Section Rename.
  Context {S V W S' V' W' : Type} {ES : Eqb S} {EV : Eqb V} {EW : Eqb W} {ES' : Eqb S'} {EV' : Eqb V'} {EW' : Eqb W'} {F : Num} {FOK : NumOK F}.
  Variables (fS : S -> S') (fV : V -> V') (fW : V -> W -> W') (ts : list (S * V * W)).
  (** labels that differ in the data still differ after the renaming *)
  Definition renames_apart : Prop :=
    (forall t t', In t ts -> In t' ts -> fS (t_src t) = fS (t_src t') -> t_src t = t_src t') /\
    (forall t t', In t ts -> In t' ts -> fV (t_var t) = fV (t_var t') -> t_var t = t_var t') /\
    (forall t t', In t ts -> In t' ts -> t_var t = t_var t' -> fW (t_var t) (t_val t) = fW (t_var t) (t_val t') -> t_val t = t_val t').
  (** the implication function follows the renaming *)
  Definition implications_follow (impf : option (V -> W -> W -> option F)) (impf' : option (V' -> W' -> W' -> option F)) : Prop :=
    match impf', impf with
    | Some g', Some g => forall t t', In t ts -> In t' ts -> t_var t = t_var t' -> t_val t <> t_val t' ->
        g' (fV (t_var t)) (fW (t_var t) (t_val t)) (fW (t_var t) (t_val t')) = g (t_var t) (t_val t) (t_val t')
    | None, None => True
    | _, _ => False
    end.
  Hypothesis RA : renames_apart.
  Notation ts' := (map (rename_triple fS fV fW) ts).
  Lemma first_renamed t0 t1 : In t0 ts -> In t1 ts -> first_claim ts' (fS (t_src t0)) (fV (t_var t1)) = option_map (fW (t_var t1)) (first_claim ts (t_src t0) (t_var t1)).
  Proof.
    intros H0 H1. destruct RA as (A & B & _). unfold first_claim.
    assert (G : forall l, incl l ts -> option_map t_val (find (fun t => beq (t_src t) (fS (t_src t0)) && beq (t_var t) (fV (t_var t1))) (map (rename_triple fS fV fW) l)) = option_map (fW (t_var t1)) (option_map t_val (find (fun t => beq (t_src t) (t_src t0) && beq (t_var t) (t_var t1)) l))); [|apply G, incl_refl].
    induction l as [|t l IH]; intros I; [reflexivity|]. assert (Ht : In t ts) by (apply I; now left). cbn [map find].
    change (t_src (rename_triple fS fV fW t)) with (fS (t_src t)). change (t_var (rename_triple fS fV fW t)) with (fV (t_var t)).
    assert (E1 : beq (fS (t_src t)) (fS (t_src t0)) = beq (t_src t) (t_src t0)). { destruct (beq_spec (t_src t) (t_src t0)) as [->|N]; [apply beq_refl|]. destruct (beq_spec (fS (t_src t)) (fS (t_src t0))) as [Q|Q]; [|reflexivity]. exfalso. apply N. now apply A. }
    assert (E2 : beq (fV (t_var t)) (fV (t_var t1)) = beq (t_var t) (t_var t1)). { destruct (beq_spec (t_var t) (t_var t1)) as [->|N]; [apply beq_refl|]. destruct (beq_spec (fV (t_var t)) (fV (t_var t1))) as [Q|Q]; [|reflexivity]. exfalso. apply N. now apply B. }
    rewrite E1, E2. destruct (beq (t_src t) (t_src t0)); cbn [andb]; [|apply IH; intros y Hy; apply I; now right]. destruct (beq_spec (t_var t) (t_var t1)) as [Q|Q]; [|apply IH; intros y Hy; apply I; now right].
    cbn [option_map]. unfold t_val, rename_triple. cbn [snd]. unfold t_var in Q |- *. now rewrite Q.
  Qed.
  Lemma claim_triple c : In c (claims ts) -> exists t, In t ts /\ t_claim t = c.
  Proof. unfold claims. intros H. apply (proj1 (distinct_In _ _)) in H. apply in_map_iff in H. destruct H as (t & E & H). apply filter_In in H. now exists t. Qed.
  Lemma source_triple s : In s (sources ts) -> exists t, In t ts /\ t_src t = s.
  Proof. unfold sources. intros H. apply (proj1 (distinct_In _ _)) in H. apply in_map_iff in H. destruct H as (t & E & H). now exists t. Qed.
  Lemma says_renamed t0 t1 : In t0 ts -> In t1 ts -> says ts' (fS (t_src t0)) (fC2 fV fW (t_claim t1)) = says ts (t_src t0) (t_claim t1).
  Proof.
    intros H0 H1. unfold says. cbn [fC2 t_claim fst snd]. rewrite first_renamed by assumption. destruct (first_claim ts (t_src t0) (t_var t1)) as [w|] eqn:E; cbn [option_map]; [|reflexivity].
    apply first_claim_In in E. destruct (beq_spec w (t_val t1)) as [->|N]; [now rewrite !beq_refl|].
    destruct (beq_spec (Some w) (Some (t_val t1))) as [Q|_]; [congruence|]. destruct (beq_spec (Some (fW (t_var t1) w)) (Some (fW (t_var t1) (t_val t1)))) as [Q|_]; [|reflexivity]. exfalso. apply N.
    destruct RA as (_ & _ & C). apply (C (t_src t0, t_var t1, w) t1 E H1 eq_refl). change (t_var (t_src t0, t_var t1, w)) with (t_var t1). change (t_val (t_src t0, t_var t1, w)) with w. congruence.
  Qed.
  Lemma rename_aligned impf impf' : implications_follow impf impf' -> aligned fS fV fW ts ts' impf impf'.
  Proof.
    intros HI. destruct RA as (A & B & C).
    assert (CC : forall t t', In t ts -> In t' ts -> fC2 fV fW (t_claim t) = fC2 fV fW (t_claim t') -> t_claim t = t_claim t').
    { intros t t' Ht Ht' E. unfold fC2, t_claim in *. cbn [fst snd] in E. injection E as E1 E2. assert (Q : t_var t = t_var t') by now apply B. f_equal; [exact Q|]. apply C; try assumption. rewrite E2. now rewrite Q. }
    split.
    - unfold sources. rewrite map_map. change (map (fun x => t_src (rename_triple fS fV fW x)) ts) with (map (fun x : S * V * W => fS (t_src x)) ts). rewrite <- (map_map t_src fS). apply distinct_map_on. intros a a' Ha Ha' E. apply in_map_iff in Ha, Ha'. destruct Ha as (t & <- & Ht), Ha' as (t' & <- & Ht'). now apply A.
    - unfold claims at 1.
      assert (E : filter (fun t => says ts' (t_src t) (t_claim t)) ts' = map (rename_triple fS fV fW) (filter (fun t => says ts (t_src t) (t_claim t)) ts)).
      { assert (G : forall l, incl l ts -> filter (fun t => says ts' (t_src t) (t_claim t)) (map (rename_triple fS fV fW) l) = map (rename_triple fS fV fW) (filter (fun t => says ts (t_src t) (t_claim t)) l)); [|apply G, incl_refl].
        induction l as [|t l IH]; intros I; [reflexivity|]. assert (Ht : In t ts) by (apply I; now left). cbn [map filter]. change (t_src (rename_triple fS fV fW t)) with (fS (t_src t)). change (t_claim (rename_triple fS fV fW t)) with (fC2 fV fW (t_claim t)).
        rewrite says_renamed by assumption. rewrite IH by (intros y Hy; apply I; now right). destruct (says ts (t_src t) (t_claim t)); reflexivity. }
      rewrite E, map_map. change (map (fun x => t_claim (rename_triple fS fV fW x)) (filter (fun t => says ts (t_src t) (t_claim t)) ts)) with (map (fun x => fC2 fV fW (t_claim x)) (filter (fun t => says ts (t_src t) (t_claim t)) ts)).
      rewrite <- (map_map t_claim (fC2 fV fW)). apply distinct_map_on. intros a a' Ha Ha' Q. apply in_map_iff in Ha, Ha'. destruct Ha as (t & <- & Ht), Ha' as (t' & <- & Ht'). apply filter_In in Ht, Ht'. apply CC; tauto.
    - intros s c Hs Hc. destruct (source_triple s Hs) as (t0 & H0 & <-). destruct (claim_triple c Hc) as (t1 & H1 & <-). now apply says_renamed.
    - intros s s' Hs Hs' E. destruct (source_triple s Hs) as (t0 & H0 & <-). destruct (source_triple s' Hs') as (t1 & H1 & <-). now apply A.
    - intros c c' Hc Hc' E. destruct (claim_triple c Hc) as (t0 & H0 & <-). destruct (claim_triple c' Hc') as (t1 & H1 & <-). now apply B.
    - intros c c' Hc Hc' E. destruct (claim_triple c Hc) as (t0 & H0 & <-). destruct (claim_triple c' Hc') as (t1 & H1 & <-). now apply CC.
    - intros c c' Hc Hc' E N. destruct (claim_triple c Hc) as (t0 & H0 & <-). destruct (claim_triple c' Hc') as (t1 & H1 & <-). unfold implications_follow in HI. destruct impf' as [g'|], impf as [g|]; try contradiction; [|exact Logic.I].
      cbn [t_claim fst snd] in E |- *. apply (HI t0 t1 H0 H1 E). intros Q. apply N. unfold t_claim. now rewrite E, Q.
  Qed.
  (** The final result, the partial results and the result of voting are those of the original data with the labels renamed: the same numbers
      (exactly), in the same order, or the same error. *)
  Theorem C72_rename b b' impf impf' d d' : implications_follow impf impf' -> build b impf ts = Ok d -> build b' impf' ts' = Ok d' ->
    (forall clock fuel a p it lg lg', fst (run clock fuel (AObj a p it lg') d') = map_ok (rename_result fS fV fW) (fst (run clock fuel (AObj a p it lg) d))) /\
    (forall clock fuel a p it lg lg', fst (run_iter clock fuel (AObj a p it lg') d') = map_ok (map (rename_result fS fV fW)) (fst (run_iter clock fuel (AObj a p it lg) d))) /\
    (forall clock, voting_run clock d' = map_ok (rename_result fS fV fW) (voting_run clock d)).
  Proof.
    intros HI Hb Hb'. pose proof (rename_aligned impf impf' HI) as AL. apply build_rep in Hb. apply build_rep in Hb'. split; [|split].
    - intros clock fuel a p it lg lg'. exact (aligned_run fS fV fW ts ts' impf impf' AL d d' Hb Hb' clock fuel a p it lg lg').
    - intros clock fuel a p it lg lg'. exact (aligned_run_iter fS fV fW ts ts' impf impf' AL d d' Hb Hb' clock fuel a p it lg lg').
    - intros clock. exact (aligned_voting fS fV fW ts ts' impf impf' AL d d' Hb Hb' clock).
  Qed.
  Lemma sv_renamed s x : In (s, x) (sv_pairs ts') -> exists t, In t ts /\ s = fS (t_src t) /\ x = fV (t_var t).
  Proof. unfold sv_pairs. rewrite map_map. intros H. apply in_map_iff in H. destruct H as (t & E & H). exists t. unfold rename_triple in E. cbn [fst] in E. injection E as <- <-. now repeat split. Qed.
  (** ... and the renamed data is accepted exactly when the original is. *)
  Theorem C72_rename_accepted b impf impf' : implications_follow impf impf' -> ((exists d, build b impf ts = Ok d) <-> (exists d', build b impf' ts' = Ok d')).
  Proof.
    intros HI. pose proof (rename_aligned impf impf' HI) as AL.
    assert (IA : imp_all_ok ts impf <-> imp_all_ok ts' impf').
    { unfold imp_all_ok. rewrite (al_cl _ _ _ _ _ _ _ AL). split; intros H c c' q Hc Hc' E.
      - apply in_map_iff in Hc, Hc'. destruct Hc as (k & <- & Hc), Hc' as (k' & <- & Hc'). rewrite (al_impval fS fV fW ts ts' impf impf' AL k k' Hc Hc') in E. now apply (H k k').
      - apply (H (fC2 fV fW c) (fC2 fV fW c')); [now apply in_map|now apply in_map|]. now rewrite (al_impval fS fV fW ts ts' impf impf' AL c c' Hc Hc'). }
    assert (ND : NoDup (sv_pairs ts) <-> NoDup (sv_pairs ts')).
    { destruct RA as (A & B & _). assert (EM : sv_pairs ts' = map (fun p : S * V => (fS (fst p), fV (snd p))) (sv_pairs ts)) by (unfold sv_pairs; rewrite !map_map; reflexivity). rewrite EM. unfold sv_pairs.
      split; [|apply NoDup_map_inv]. intros N. assert (G : forall l, incl l (map fst ts) -> NoDup l -> NoDup (map (fun p : S * V => (fS (fst p), fV (snd p))) l)); [|apply G; [apply incl_refl|exact N]].
      induction l as [|y l IH]; intros I Nl; cbn [map]; [constructor|]. inversion Nl as [|? ? Ny Nl']; subst. constructor; [|apply IH; [intros z Hz; apply I; now right|exact Nl']].
      intros H. apply in_map_iff in H. destruct H as (z & E & Hz). apply Ny. assert (z = y); [|congruence]. assert (Hy : In y (map fst ts)) by (apply I; now left). assert (Hz' : In z (map fst ts)) by (apply I; now right).
      apply in_map_iff in Hy, Hz'. destruct Hy as (t & <- & Ht), Hz' as (t' & <- & Ht'). injection E as E1 E2. pose proof (A t' t Ht' Ht E1) as Q1. pose proof (B t' t Ht' Ht E2) as Q2. unfold t_src, t_var in Q1, Q2. now apply injective_projections. }
    destruct b.
    - destruct (build_allow impf ts) as [(I & d & E & _)|(I & E)], (build_allow impf' ts') as [(I' & d' & E' & _)|(I' & E')]; rewrite E, E'; split; intros [? Q]; try discriminate; eauto; tauto.
    - destruct (build_strict impf ts) as [(N & I & d & E & _)|[(N & I & E)|(s & x & N & E)]], (build_strict impf' ts') as [(N' & I' & d' & E' & _)|[(N' & I' & E')|(s' & x' & N' & E')]]; rewrite E, E'; split; intros [? Q]; try discriminate; eauto; try tauto;
        exfalso; try (apply first_repeat_not_NoDup in N'; tauto); try (apply first_repeat_not_NoDup in N; tauto).
  Qed.
End Rename.

(** ** Repeated claims *)
Section Repeats.
  Context {S V W : Type} {ES : Eqb S} {EV : Eqb V} {EW : Eqb W} {F : Num} {FOK : NumOK F}.
  Notation triple := (S * V * W)%type.
  Lemma drop_seen_ext (l : list triple) : forall s1 s2, (forall k, In k s1 <-> In k s2) -> drop_repeats s1 l = drop_repeats s2 l.
  Proof.
    induction l as [|t l IH]; intros s1 s2 H; cbn [drop_repeats]; [reflexivity|]. assert (E : mem (fst t) s1 = mem (fst t) s2). { destruct (mem (fst t) s2) eqn:Q; [apply mem_In in Q; apply mem_In; now apply H|]. destruct (mem (fst t) s1) eqn:Q1; [|reflexivity]. apply mem_In in Q1. apply H in Q1. apply mem_In in Q1. congruence. }
    rewrite E. destruct (mem (fst t) s2); [now apply IH|]. f_equal. apply IH. intros k. cbn. now rewrite H.
  Qed.
  Lemma drop_snoc (l : list triple) t : forall seen, drop_repeats seen (l ++ [t]) = drop_repeats seen l ++ (if mem (fst t) (seen ++ map fst l) then [] else [t]).
  Proof.
    induction l as [|u l IH]; intros seen; cbn [app drop_repeats map].
    - rewrite app_nil_r. destruct (mem (fst t) seen); reflexivity.
    - destruct (mem (fst u) seen) eqn:Q.
      + rewrite IH. assert (E : mem (fst t) (seen ++ fst u :: map fst l) = mem (fst t) (seen ++ map fst l)); [|now rewrite E]. apply mem_In in Q. apply eq_true_iff_eq. rewrite !mem_In, !in_app_iff. cbn. split; [intros [H|[<-|H]]|intros [H|H]]; auto.
      + rewrite IH. cbn [app]. f_equal. f_equal. assert (E : mem (fst t) (seen ++ fst u :: map fst l) = mem (fst t) (fst u :: seen ++ map fst l)); [|now rewrite E]. apply eq_true_iff_eq. rewrite !mem_In. cbn. rewrite !in_app_iff. cbn. tauto.
  Qed.
  Lemma drop_incl (l : list triple) : forall seen t, In t (drop_repeats seen l) -> In t l.
  Proof. induction l as [|u l IH]; intros seen t; cbn [drop_repeats]; [tauto|]. destruct (mem (fst u) seen); cbn; intros H; [right; eapply IH; eassumption|]. destruct H as [->|H]; [now left|right; eapply IH; eassumption]. Qed.
  Lemma drop_pairs (l : list triple) k : In k (sv_pairs (drop_repeats [] l)) <-> In k (sv_pairs l).
  Proof.
    induction l as [|t l IH] using rev_ind; [reflexivity|]. rewrite drop_snoc. cbn [app]. unfold sv_pairs in *. rewrite !map_app, !in_app_iff, IH. destruct (mem (fst t) (map fst l)) eqn:Q; cbn; [|tauto]. apply mem_In in Q. split; [tauto|]. intros [H|[<-|[]]]; auto.
  Qed.
  (** ignoring repeats leaves one claim for every source and variable *)
  Lemma drop_NoDup (l : list triple) : NoDup (sv_pairs (drop_repeats [] l)).
  Proof.
    induction l as [|t l IH] using rev_ind; [constructor|]. rewrite drop_snoc. cbn [app]. destruct (mem (fst t) (map fst l)) eqn:Q; [now rewrite app_nil_r|]. unfold sv_pairs in *. rewrite map_app. cbn [map].
    apply NoDup_rev in IH. rewrite <- (rev_involutive (map fst (drop_repeats [] l) ++ [fst t])). apply NoDup_rev. rewrite rev_app_distr. cbn. constructor; [|exact IH].
    rewrite <- in_rev. intros H. apply (drop_pairs l (fst t)) in H. unfold sv_pairs in H. apply mem_In in H. congruence.
  Qed.
  Lemma drop_first (l : list triple) s x : first_claim (drop_repeats [] l) s x = first_claim l s x.
  Proof.
    induction l as [|t l IH] using rev_ind; [reflexivity|]. rewrite drop_snoc. cbn [app]. rewrite !first_claim_app, IH. destruct (first_claim l s x) as [v|] eqn:E; [reflexivity|]. destruct (mem (fst t) (map fst l)) eqn:Q; [|reflexivity].
    apply first_claim_None in E. apply mem_In in Q. unfold first_claim. cbn [find]. destruct (beq_spec (t_src t) s) as [<-|_]; [|reflexivity]. destruct (beq_spec (t_var t) x) as [<-|_]; [|reflexivity]. exfalso. apply E. unfold sv_pairs, t_src, t_var. now rewrite <- surjective_pairing.
  Qed.
  Lemma drop_sources (l : list triple) : sources (drop_repeats [] l) = sources l.
  Proof.
    induction l as [|t l IH] using rev_ind; [reflexivity|]. rewrite drop_snoc. cbn [app]. destruct (mem (fst t) (map fst l)) eqn:Q.
    - rewrite app_nil_r, IH. unfold sources. rewrite map_app. cbn [map]. rewrite distinct_snoc. assert (M : mem (t_src t) (map t_src l) = true); [|now rewrite M]. apply mem_In in Q. apply mem_In. apply in_map_iff in Q. destruct Q as (u & E & Hu). apply in_map_iff. exists u. split; [unfold t_src; now rewrite E|exact Hu].
    - unfold sources in *. rewrite !map_app. cbn [map]. rewrite !distinct_snoc, IH. assert (M : mem (t_src t) (map t_src (drop_repeats [] l)) = mem (t_src t) (map t_src l)); [|now rewrite M].
      apply eq_true_iff_eq. rewrite !mem_In. rewrite <- (distinct_In _ (map t_src (drop_repeats [] l))), IH, distinct_In. reflexivity.
  Qed.
  Lemma drop_claims (l : list triple) : claims (drop_repeats [] l) = claims l.
  Proof.
    unfold claims. rewrite (filter_ext (fun t => says (drop_repeats [] l) (t_src t) (t_claim t)) (fun t => says l (t_src t) (t_claim t))) by (intros t; unfold says; now rewrite drop_first).
    assert (G : forall m r, l = m ++ r -> distinct (map t_claim (filter (fun t => says l (t_src t) (t_claim t)) (drop_repeats [] m))) = distinct (map t_claim (filter (fun t => says l (t_src t) (t_claim t)) m))); [|exact (G l [] (eq_sym (app_nil_r l)))].
    induction m as [|t m IH] using rev_ind; intros r El; [reflexivity|]. assert (El' : l = m ++ (t :: r)) by (rewrite El, <- app_assoc; reflexivity). specialize (IH _ El'). rewrite drop_snoc. cbn [app]. rewrite !filter_app, !map_app.
    destruct (says l (t_src t) (t_claim t)) eqn:Sy.
    2:{ destruct (mem (fst t) (map fst m)); cbn [filter]; rewrite ?Sy; cbn [map]; now rewrite !app_nil_r. }
    destruct (mem (fst t) (map fst m)) eqn:Q.
    - cbn [filter]. rewrite Sy. cbn [map]. rewrite app_nil_r, distinct_snoc, IH.
      assert (M : mem (t_claim t) (map t_claim (filter (fun t => says l (t_src t) (t_claim t)) m)) = true); [|now rewrite M]. apply mem_In in Q. apply mem_In. apply says_true in Sy. cbn [t_claim fst snd] in Sy.
      rewrite El' in Sy. rewrite first_claim_app in Sy. destruct (first_claim m (t_src t) (t_var t)) as [v|] eqn:Ef.
      + injection Sy as ->. pose proof (first_claim_In _ _ _ _ Ef) as Hin. apply in_map_iff. exists (t_src t, t_var t, t_val t). split; [reflexivity|]. apply filter_In. split; [exact Hin|]. apply says_true. rewrite El', first_claim_app.
        change (t_src (t_src t, t_var t, t_val t)) with (t_src t). change (fst (t_claim (t_src t, t_var t, t_val t))) with (t_var t). change (snd (t_claim (t_src t, t_var t, t_val t))) with (t_val t). now rewrite Ef.
      + exfalso. apply first_claim_None in Ef. apply Ef. unfold sv_pairs, t_src, t_var. now rewrite <- surjective_pairing.
    - cbn [filter]. rewrite Sy. cbn [map]. rewrite !distinct_snoc, IH. assert (M : mem (t_claim t) (map t_claim (filter (fun t => says l (t_src t) (t_claim t)) (drop_repeats [] m))) = mem (t_claim t) (map t_claim (filter (fun t => says l (t_src t) (t_claim t)) m))); [|now rewrite M].
      apply eq_true_iff_eq. rewrite !mem_In. rewrite <- (distinct_In _ (map t_claim (filter _ (drop_repeats [] m)))), IH, distinct_In. reflexivity.
  Qed.

  Lemma id_result {T} (r : result S V W T) : rename_result (fun s => s) (fun x => x) (fun _ v => v) r = r.
  Proof.
    destruct r as [t b u k]. unfold rename_result. cbn [r_trust r_belief r_time r_iterations]. f_equal.
    - rewrite <- (map_id t) at 2. apply map_ext. intros []; reflexivity.
    - rewrite <- (map_id b) at 2. apply map_ext. intros [x m]. cbn [fst snd]. f_equal. rewrite <- (map_id m) at 2. apply map_ext. intros []; reflexivity.
  Qed.
  Lemma id_results {T} (l : list (result S V W T)) : map (rename_result (fun s => s) (fun x => x) (fun _ v => v)) l = l.
  Proof. rewrite <- (map_id l) at 2. apply map_ext. intros; apply id_result. Qed.
  Lemma fC2_id : forall l : list (V * W), map (fC2 (fun x => x) (fun _ v => v)) l = l.
  Proof. intros l. rewrite <- (map_id l) at 2. apply map_ext. intros []; reflexivity. Qed.
  Lemma drop_aligned (impf : option (V -> W -> W -> option F)) (ts : list triple) : aligned (fun s => s) (fun x => x) (fun _ v => v) ts (drop_repeats [] ts) impf impf.
  Proof.
    split.
    - now rewrite drop_sources, map_id.
    - now rewrite drop_claims, fC2_id.
    - intros s c _ _. unfold says. rewrite drop_first. reflexivity.
    - intros; assumption.
    - intros; assumption.
    - intros [] [] _ _ H. exact H.
    - intros c c' _ _ _ _. destruct impf; [reflexivity|exact Logic.I].
  Qed.
  (** Claims ignored under allow_multiple leave no trace: every result is that of the data without them. *)
  Theorem C72_repeats b b' (impf : option (V -> W -> W -> option F)) (ts : list triple) d d' : build b impf ts = Ok d -> build b' impf (drop_repeats [] ts) = Ok d' ->
    (forall clock fuel a p it lg lg', fst (run clock fuel (AObj a p it lg') d') = fst (run clock fuel (AObj a p it lg) d)) /\
    (forall clock fuel a p it lg lg', fst (run_iter clock fuel (AObj a p it lg') d') = fst (run_iter clock fuel (AObj a p it lg) d)) /\
    (forall clock, voting_run clock d' = voting_run clock d).
  Proof.
    intros Hb Hb'. pose proof (drop_aligned impf ts) as AL. apply build_rep in Hb. apply build_rep in Hb'. split; [|split].
    - intros clock fuel a p it lg lg'. rewrite (aligned_run _ _ _ ts (drop_repeats [] ts) impf impf AL d d' Hb Hb' clock fuel a p it lg lg'). destruct (fst (run clock fuel (AObj a p it lg) d)); cbn [map_ok]; [now rewrite id_result|reflexivity].
    - intros clock fuel a p it lg lg'. rewrite (aligned_run_iter _ _ _ ts (drop_repeats [] ts) impf impf AL d d' Hb Hb' clock fuel a p it lg lg'). destruct (fst (run_iter clock fuel (AObj a p it lg) d)); cbn [map_ok]; [now rewrite id_results|reflexivity].
    - intros clock. rewrite (aligned_voting _ _ _ ts (drop_repeats [] ts) impf impf AL d d' Hb Hb' clock). destruct (voting_run clock d); cbn [map_ok]; [now rewrite id_result|reflexivity].
  Qed.
  (** ... and that data needs no allow_multiple: it is accepted without it whenever the full data is accepted with it. *)
  Theorem C72_repeats_accepted b (impf : option (V -> W -> W -> option F)) (ts : list triple) : (exists d, build true impf ts = Ok d) <-> (exists d', build b impf (drop_repeats [] ts) = Ok d').
  Proof.
    assert (IA : imp_all_ok ts impf <-> imp_all_ok (drop_repeats [] ts) impf) by (unfold imp_all_ok; now rewrite drop_claims).
    destruct (build_allow impf ts) as [(I & d & E & _)|(I & E)]; rewrite E; destruct b.
    - destruct (build_allow impf (drop_repeats [] ts)) as [(I' & d' & E' & _)|(I' & E')]; rewrite E'; split; intros [? Q]; try discriminate; eauto; tauto.
    - destruct (build_strict impf (drop_repeats [] ts)) as [(N' & I' & d' & E' & _)|[(N' & I' & E')|(s' & x' & N' & E')]]; rewrite E'; split; intros [? Q]; try discriminate; eauto; try tauto.
      exfalso. exact (first_repeat_not_NoDup _ _ _ N' (drop_NoDup ts)).
    - destruct (build_allow impf (drop_repeats [] ts)) as [(I' & d' & E' & _)|(I' & E')]; rewrite E'; split; intros [? Q]; try discriminate; eauto; tauto.
    - destruct (build_strict impf (drop_repeats [] ts)) as [(N' & I' & d' & E' & _)|[(N' & I' & E')|(s' & x' & N' & E')]]; rewrite E'; split; intros [? Q]; try discriminate; eauto; try tauto.
  Qed.
End Repeats.

(** ** Order is not only a name: in doubles, listing the same triples in another order can change a score *)
Module RenameExamples.
  Import FloatExamples.
  Definition one : list (nat * nat * nat) := [(3,2,2); (2,1,1); (2,2,2); (3,1,2); (1,2,2)]%nat.
  Definition two : list (nat * nat * nat) := [(3,1,2); (1,2,2); (2,1,1); (3,2,2); (2,2,2)]%nat.
  Definition belief_in (L : libm) (l : list (nat * nat * nat)) : option (SpecFloat.spec_float) := match build (F:=B64 L) false None l with Err _ => None | Ok d =>
    match fst (run (F:=B64 L) (fun _ => ofZ64 0) 10 (AObj Sums FIXED (IFixed 3 0) None) d) with
    | Ok r => match dget (r_belief r) 1%nat with Some m => option_map bits (dget m 1%nat) | None => None end
    | Err _ => None end end.
  Lemma beliefs_differ : match belief_in lm one, belief_in lm two with Some a, Some b => negb (SpecFloat.SFeqb a b) | _, _ => false end = true.
  Proof. vm_compute. reflexivity. Qed.
  Theorem C72_order_matters_in_floats : Permutation one two /\ exists d d' r r' m m' x x',
    build (F:=B64 lm) false None one = Ok d /\ build (F:=B64 lm) false None two = Ok d' /\
    fst (run (F:=B64 lm) (fun _ => ofZ64 0) 10 (AObj Sums FIXED (IFixed 3 0) None) d) = Ok r /\ fst (run (F:=B64 lm) (fun _ => ofZ64 0) 10 (AObj Sums FIXED (IFixed 3 0) None) d') = Ok r' /\
    dget (r_belief r) 1%nat = Some m /\ dget m 1%nat = Some x /\ dget (r_belief r') 1%nat = Some m' /\ dget m' 1%nat = Some x' /\ n_eqb (n:=B64 lm) x x' = false.
  Proof.
    split.
    - unfold one, two. apply NoDup_Permutation; [| |intros x; cbn; intuition]; repeat (apply NoDup_cons; [cbn; intuition congruence|]); apply NoDup_nil.
    - pose proof beliefs_differ as H. unfold belief_in in H.
      destruct (build (F:=B64 lm) false None one) as [d|] eqn:E1; [|discriminate H]. destruct (build (F:=B64 lm) false None two) as [d'|] eqn:E2; [|destruct (fst _) as [r|]; [destruct (dget _ _) as [m|]; [destruct (dget m _)|]|]; discriminate H].
      destruct (fst (run _ _ _ d)) as [r|] eqn:R1; [|discriminate H]. destruct (fst (run _ _ _ d')) as [r'|] eqn:R2; [|destruct (dget _ _) as [m|]; [destruct (dget m _)|]; discriminate H].
      destruct (dget (r_belief r) 1%nat) as [m|] eqn:M1; [|discriminate H]. destruct (dget m 1%nat) as [x|] eqn:X1; [|discriminate H]. destruct (dget (r_belief r') 1%nat) as [m'|] eqn:M2; [|discriminate H]. destruct (dget m' 1%nat) as [x'|] eqn:X2; [|discriminate H].
      exists d, d', r, r', m, m', x, x'. cbn [option_map] in H. apply negb_true_iff in H. repeat (split; [assumption || reflexivity|]). exact H.
  Qed.
  (** the hypotheses are met by data with a repeated claim, in doubles *)
  Definition again : list (nat * nat * nat) := [(1,1,10); (2,1,11); (1,1,12); (1,2,10); (2,2,10); (2,1,11); (3,1,11)]%nat.
  Definition mv_s (s : nat) : nat := 10 - s. Definition mv_v (x : nat) : nat := 3 * x. Definition mv_w (x v : nat) : nat := match x with 1 => v + 5 | _ => 77 end.
  Example again_dropped : drop_repeats [] again = [(1,1,10); (2,1,11); (1,2,10); (2,2,10); (3,1,11)]%nat.
  Proof. vm_compute. reflexivity. Qed.
  Example again_builds : exists d : dataset nat nat nat (B64 lm), build true None again = Ok d.
  Proof. destruct (build_allow (F:=B64 lm) None again) as [(_ & d & E & _)|(N & _)]; [exists d; exact E|]. exfalso. apply N. intros c c' q _ _ H. unfold imp_val in H. destruct (_ && _)%bool; discriminate. Qed.
  Example again_apart : renames_apart mv_s mv_v mv_w again /\ implications_follow (F:=B64 lm) mv_v mv_w again None None.
  Proof.
    split; [|exact Logic.I]. unfold renames_apart.
    assert (B : forall t, In t again -> t_src t <= 3 /\ (t_var t = 1 \/ (t_var t = 2 /\ t_val t = 10))). { intros t H. unfold again in H. cbn [In] in H. repeat (destruct H as [<-|H]; [cbn; lia|]). destruct H. }
    split; [|split]; intros t t' H H'; pose proof (B t H) as (B1 & B2); pose proof (B t' H') as (B1' & B2'); unfold mv_s, mv_v.
    - lia.
    - lia.
    - intros E. rewrite E in *. destruct B2' as [Q|[Q Q']]; rewrite Q; cbn [mv_w]; [lia|]. intros _. destruct B2 as [Q2|[_ Q2]]; lia.
  Qed.
  (** ... where three rounds of Sums give the same doubles under the other names *)
  Definition shown_as (l : list (nat * nat * nat)) := match build (F:=B64 lm) true None l with Err _ => None | Ok d =>
    match fst (run (F:=B64 lm) (fun _ => ofZ64 0) 10 (AObj Sums FIXED (IFixed 3 0) None) d) with
    | Ok r => Some (map (fun p => (fst p, bits (snd p))) (r_trust r), map (fun p => (fst p, map (fun q => (fst q, bits (snd q))) (snd p))) (r_belief r))
    | Err _ => None end end.
  Example names_only : match shown_as again, shown_as (map (rename_triple mv_s mv_v mv_w) again) with
    | Some (t, b), Some (t', b') => map fst t = [1; 2; 3]%nat /\ map fst t' = [9; 8; 7]%nat /\ map snd t = map snd t' /\ map fst b' = [3; 6]%nat /\ map (fun p => map snd (snd p)) b = map (fun p => map snd (snd p)) b'
    | _, _ => False end.
  Proof. vm_compute. repeat split; reflexivity. Qed.
End RenameExamples.
