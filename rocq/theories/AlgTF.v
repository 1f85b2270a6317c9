(** One round of TruthFinder, in exact arithmetic, is one step of its label-level recurrence. *)
From Coq Require Import Reals Lra.
From Verif Require Import Base Num Sparse Spec SpecAlg Dataset DatasetProofs DatasetRep Iterators Algorithms Driver Rounds AlgRep AlgRounds.
Local Open Scope R_scope.

Lemma mrep_ext {F : Num} {A B} (M : mat F) (Rw : list A) (C : list B) rel rel' ent ent' :
  mrep M Rw C rel ent -> (forall a b, rel a b = rel' a b) -> (forall a b, rel a b = true -> ent a b = ent' a b) ->
  mrep M Rw C rel' ent'.
Proof.
  intros (H1 & H2 & H3) Hr He. split; [exact H1|split; [exact H2|]]. intros i j a b Ha Hb. destruct (H3 i j a b Ha Hb) as [Q1 Q2].
  split; [now rewrite Q1|]. intros Hr'. rewrite <- Hr in Hr'. rewrite Q2 by assumption. auto.
Qed.

(** an implication function with real values, as given to the library *)
Definition real_imp {V W} (f : option (V -> W -> W -> option R)) : option (V -> W -> W -> option XR) :=
  match f with Some f => Some (fun x w w' => match f x w w' with Some q => Some (Fin q) | None => None end) | None => None end.

Section AlgTF.
  Context {S V W : Type} {ES : Eqb S} {EV : Eqb V} {EW : Eqb W}.
  Notation data := (dataset S V W XR).
  Notation claim := (V * W)%type.
  Variable ts : list (S * V * W).
  Variable f : option (V -> W -> W -> option R).
  Variable d : data.
  Hypothesis R0 : ds_rep (F:=XR) ts (real_imp f) d.
  Hypothesis NE : ts <> [].
  Notation rscores := (@rscores S V W).
  Notation tvec := (tvec ts). Notation bvec := (bvec ts). Notation denote := (denote ts).

  Lemma imp_num_fin c c' : @imp_num V W _ _ XR (real_imp f) c c' = Fin (implication f c c').
  Proof.
    unfold imp_num, imp_val, implication, real_imp. destruct (beq (fst c) (fst c') && negb (beq c c'))%bool; destruct f as [f0|]; try reflexivity.
    destruct (f0 (fst c) (snd c) (snd c')); reflexivity.
  Qed.
  Lemma imp_none c c' : is_some (@imp_val V W _ _ XR (real_imp f) c c') = false -> implication f c c' = 0.
  Proof.
    unfold imp_val, implication, real_imp. destruct (beq (fst c) (fst c') && negb (beq c c'))%bool; destruct f as [f0|]; try reflexivity.
    destruct (f0 (fst c) (snd c) (snd c')); [discriminate|reflexivity].
  Qed.
  Definition ind (b : bool) : R := if b then 1 else 0.
  (** influence of source s on claim c *)
  Definition tfE (rho : R) (c : claim) (s : S) : R :=
    ind (says ts s c) + rho * rsum (fun c' => implication f c' c * ind (says ts s c')) (claims ts).

  Lemma tfB_rep rho : exists rel, mrep (tf_b_mat (Fin rho) d) (claims ts) (sources ts) rel (fun c s => Fin (tfE rho c s)) /\
     forall c s, rel c s = false -> tfE rho c s = 0.
  Proof.
    pose proof (mrep_tr _ _ _ _ _ (rep_sc _ _ _ R0)) as M1. pose proof (mrep_tr _ _ _ _ _ (rep_imp _ _ _ R0)) as M2.
    pose proof (mm_rep _ _ _ _ _ _ _ _ _ M2 M1) as M3. pose proof (smul_rep (F:=XR) (Fin rho) _ _ _ _ _ M3) as M4.
    pose proof (madd_rep _ _ _ _ _ _ _ _ M1 M4) as M5. cbv zeta in M5. cbn beta in M5.
    set (rel2 := fun c s => existsb (fun b => is_some (@imp_val V W _ _ XR (real_imp f) b c) && says ts s b)%bool (claims ts)) in *.
    assert (Em : forall c s, fold_left (@n_add XR) (map (fun b => @n_mul XR (imp_num (real_imp f) b c) (n_ofZ 1))
              (filter (fun b => is_some (@imp_val V W _ _ XR (real_imp f) b c) && says ts s b)%bool (claims ts))) (n_ofZ 0)
            = Fin (rsum (fun c' => implication f c' c * ind (says ts s c')) (claims ts))).
    { intros c s. assert (Q : map (fun b => @n_mul XR (imp_num (real_imp f) b c) (n_ofZ 1))
              (filter (fun b => is_some (@imp_val V W _ _ XR (real_imp f) b c) && says ts s b)%bool (claims ts)) =
          map (fun b => Fin (implication f b c * 1)) (filter (fun b => is_some (@imp_val V W _ _ XR (real_imp f) b c) && says ts s b)%bool (claims ts))).
      { apply map_ext. intros b. rewrite imp_num_fin. reflexivity. }
      rewrite Q. refine (eq_trans (xsum_fin (fun b => implication f b c * 1) _ 0) _). f_equal. rewrite Rplus_0_l, rsum_filter. apply rsum_ext. intros b _.
      destruct (is_some (@imp_val V W _ _ XR (real_imp f) b c)) eqn:Ei; cbn [andb].
      - unfold ind. destruct (says ts s b); lra.
      - rewrite (imp_none b c Ei). lra. }
    assert (E0 : forall c s, rel2 c s = false -> rsum (fun c' => implication f c' c * ind (says ts s c')) (claims ts) = 0).
    { intros c s H. unfold rel2 in H. rewrite (rsum_ext _ (fun _ => 0)), rsum_zero; [reflexivity|]. intros c' Hc'.
      destruct (is_some (@imp_val V W _ _ XR (real_imp f) c' c)) eqn:Ei; [|rewrite (imp_none _ _ Ei); lra].
      destruct (says ts s c') eqn:Es; [|unfold ind; lra]. exfalso.
      assert (existsb (fun b => is_some (@imp_val V W _ _ XR (real_imp f) b c) && says ts s b)%bool (claims ts) = true); [|congruence].
      apply existsb_exists. exists c'. rewrite Ei, Es. auto. }
    assert (Ee : forall c s, (if says ts s c then if rel2 c s then
              @n_add XR (n_ofZ 1) (n_mul (Fin rho) (fold_left (@n_add XR) (map (fun b => @n_mul XR (imp_num (real_imp f) b c) (n_ofZ 1))
              (filter (fun b => is_some (@imp_val V W _ _ XR (real_imp f) b c) && says ts s b)%bool (claims ts))) (n_ofZ 0))) else n_ofZ 1
            else if rel2 c s then n_mul (Fin rho) (fold_left (@n_add XR) (map (fun b => @n_mul XR (imp_num (real_imp f) b c) (n_ofZ 1))
              (filter (fun b => is_some (@imp_val V W _ _ XR (real_imp f) b c) && says ts s b)%bool (claims ts))) (n_ofZ 0)) else n_ofZ 0) = Fin (tfE rho c s)).
    { intros c s. rewrite Em. unfold tfE, ind at 1. destruct (says ts s c), (rel2 c s) eqn:Er; try rewrite (E0 c s Er); cbn; f_equal; lra. }
    exists (fun c s => ((says ts s c || rel2 c s) && negb (reqb (tfE rho c s) 0))%bool). split.
    - eapply mrep_ext; [exact M5| |]; intros c s.
      + exact (f_equal (fun z => ((says ts s c || rel2 c s) && negb (xeqb z (Fin 0)))%bool) (Ee c s)).
      + intros _. apply Ee.
    - intros c s H. apply andb_false_iff in H. destruct H as [H|H].
      + apply orb_false_iff in H. destruct H as [H1 H2]. unfold tfE. rewrite H1, (E0 c s H2). unfold ind. lra.
      + destruct (reqb_spec (tfE rho c s) 0); [assumption|discriminate].
  Qed.

  Lemma rsum_ind (t : S -> R) c : rsum (fun s => ind (says ts s c) * t s) (sources ts) = total_trust ts t c.
  Proof.
    unfold total_trust, supporters. rewrite rsum_filter. apply rsum_ext. intros s _. unfold ind. destruct (says ts s c); lra.
  Qed.
  Lemma tfB_mv rho tau : mv (tf_b_mat (Fin rho) d) (tvec tau) =
    bvec (fun c => total_trust ts tau c + rho * rsum (fun c' => implication f c' c * total_trust ts tau c') (claims ts)).
  Proof.
    destruct (tfB_rep rho) as (rel & M & Z). unfold AlgRep.tvec. rewrite (mv_rep_fin _ _ _ _ _ _ M). apply bvec_ext. intros c _.
    rewrite rsum_filter. rewrite (rsum_ext _ (fun s => ind (says ts s c) * tau s + rho * (rsum (fun c' => implication f c' c * (ind (says ts s c') * tau s)) (claims ts)))).
    - rewrite (rsum_plus (fun s => ind (says ts s c) * tau s)), rsum_ind. f_equal. rewrite rsum_scal. f_equal.
      rewrite rsum_swap. apply rsum_ext. intros c' _. rewrite rsum_scal. f_equal. apply rsum_ind.
    - intros s _. assert (E : (if rel c s then tfE rho c s * tau s else 0) = tfE rho c s * tau s).
      { destruct (rel c s) eqn:Er; [reflexivity|]. rewrite (Z c s Er). lra. }
      rewrite E. unfold tfE. rewrite Rmult_plus_distr_r. f_equal. rewrite Rmult_assoc. f_equal. rewrite <- rsum_scal_r. apply rsum_ext. intros. ring.
  Qed.
  Lemma tfA_mv b : mv (tf_a_mat d) (bvec b) = tvec (fun s => total_belief ts b s / n_claims ts s).
  Proof.
    unfold tf_a_mat. rewrite (claim_counts_rep ts (real_imp f) d R0). change (n_ofZ 1 : XR) with (Fin 1). rewrite tvec_sdivv.
    2:{ intros s Hs. apply Rgt_not_eq. now apply n_claims_pos. }
    pose proof (mrep_tr _ _ _ _ _ (mmulc_rep _ _ _ _ _ (fun s => Fin (1 / n_claims ts s)) (mrep_tr _ _ _ _ _ (rep_sc _ _ _ R0)))) as M.
    unfold AlgRep.bvec. rewrite (mv_rep_fin _ (sources ts) (claims ts) (says ts) (fun s _ => 1 * (1 / n_claims ts s))); [|exact M].
    apply tvec_ext. intros s Hs. fold (claims_of ts s). unfold total_belief. unfold Rdiv at 2. rewrite <- rsum_scal_r. apply rsum_ext.
    intros c _. field. apply Rgt_not_eq. now apply n_claims_pos.
  Qed.

  Definition tf_inv (x : rscores) : Prop := forall s, In s (sources ts) -> fst x s < 1.
  Lemma logistic_range y : 0 < 1 / (1 + exp y) < 1.
  Proof.
    pose proof (exp_pos y). split; [apply Rdiv_lt_0_compat; lra|].
    apply (Rmult_lt_reg_r (1 + exp y)); [lra|]. unfold Rdiv. rewrite Rmult_assoc, Rinv_l; lra.
  Qed.
  Lemma mean_range b s lo hi : In s (sources ts) -> (forall c, lo < b c < hi) -> lo < total_belief ts b s / n_claims ts s < hi.
  Proof.
    intros Hs Hb. pose proof (n_claims_pos ts s Hs) as P. destruct (claims_of_ne ts s Hs) as [c Hc].
    unfold total_belief, n_claims in *. set (l := claims_of ts s) in *.
    assert (Lo : INR (length l) * lo < rsum b l).
    { clear P. clearbody l. clear -Hb Hc. destruct l as [|c0 l]; [destruct Hc|]. clear Hc.
      rewrite <- rsum_const. cbn [rsum]. assert (rsum (fun _ => lo) l <= rsum b l) by (apply rsum_le; intros y _; destruct (Hb y); lra).
      destruct (Hb c0). lra. }
    assert (Hi : rsum b l < INR (length l) * hi).
    { clear P. clearbody l. clear -Hb Hc. destruct l as [|c0 l]; [destruct Hc|]. clear Hc.
      rewrite <- rsum_const. cbn [rsum]. assert (rsum b l <= rsum (fun _ => hi) l) by (apply rsum_le; intros y _; destruct (Hb y); lra).
      destruct (Hb c0). lra. }
    assert (Q : forall z, z / INR (length l) * INR (length l) = z) by (intros; field; lra).
    split; apply (Rmult_lt_reg_r (INR (length l))); try exact P; rewrite Q; lra.
  Qed.
  Lemma tf_step_range rho gamma x : (forall c, 0 < snd (tf_step ts f rho gamma x) c < 1) /\
    (forall s, In s (sources ts) -> 0 < fst (tf_step ts f rho gamma x) s < 1).
  Proof.
    split.
    - intros c. cbn [snd tf_step]. apply logistic_range.
    - intros s Hs. cbn [fst tf_step]. apply mean_range; [exact Hs|]. intros c. apply logistic_range.
  Qed.
  Lemma tf_round rho gamma t0 x : tf_inv x ->
    round (TruthFinder (Fin rho) (Fin gamma) t0) d (denote x) =
      UNext (tvec (fst (tf_step ts f rho gamma x))) (tvec (fst x)) (denote (tf_step ts f rho gamma x)).
  Proof.
    intros Hx. cbn [round]. unfold AlgRep.denote at 1, tf_upd, get_log_trust.
    assert (E1 : existsb (fun t => @n_eqb XR t (n_ofZ 1)) (tvec (fst x)) = false).
    { destruct (existsb _ _) eqn:E; [|reflexivity]. apply existsb_exists in E. destruct E as (q & Hq & Ex).
      unfold AlgRep.tvec in Hq. apply in_map_iff in Hq. destruct Hq as (s & <- & Hs). cbn in Ex.
      destruct (reqb_spec (fst x s) 1) as [Q|]; [|discriminate]. specialize (Hx s Hs). lra. }
    rewrite E1.
    assert (E2 : map (fun t => @n_opp XR (n_ln (n_sub (n_ofZ 1) t))) (tvec (fst x)) = tvec (fun s => - ln (1 - fst x s))).
    { unfold AlgRep.tvec. rewrite map_map. apply map_ext_in. intros s Hs. specialize (Hx s Hs).
      change (xopp (xln (xsub (Fin 1) (Fin (fst x s)))) = Fin (- ln (1 - fst x s))). rewrite xsub_fin, xln_fin by lra. reflexivity. }
    rewrite E2, tfB_mv.
    set (conf := fun c => total_trust ts (fun s => - ln (1 - fst x s)) c + rho * rsum (fun c' => implication f c' c * total_trust ts (fun s => - ln (1 - fst x s)) c') (claims ts)).
    assert (E3 : map (fun y => @n_div XR (n_ofZ 1) (n_add (n_ofZ 1) (n_exp (n_mul (n_opp (Fin gamma)) y)))) (bvec conf) =
                 bvec (snd (tf_step ts f rho gamma x))).
    { unfold AlgRep.bvec. rewrite map_map. apply map_ext. intros c.
      change (xdiv (Fin 1) (Fin (1 + exp (- gamma * conf c))) = Fin (snd (tf_step ts f rho gamma x) c)).
      pose proof (exp_pos (- gamma * conf c)). rewrite xdiv_fin by lra. replace (- gamma * conf c) with (- (gamma * conf c)) by ring. reflexivity. }
    cbv zeta. rewrite E3, tfA_mv. reflexivity.
  Qed.
End AlgTF.
