(** C42: same support, same score (in any arithmetic, so also with rounding); more support, no lower score (exact arithmetic). *)
From Coq Require Import Reals Lra.
From Verif Require Import Base Num Sparse Spec SpecAlg Dataset DatasetProofs DatasetRep Iterators Algorithms Driver Distance Ranking Rounds
  AlgRep AlgRounds AlgTF PropsData PropsIter PropsRun PropsAlg AlgPack PropsOrd.

(** ** Vectors with equal entries at two positions *)
Section At.
  Context {F : Num}.
  Definition tied (i j : nat) {A} (v : list A) : Prop := nth_error v i = nth_error v j.
  Lemma tied_map {A B} (f : A -> B) i j v : tied i j v -> tied i j (map f v).
  Proof. unfold tied. rewrite !nth_error_map. now intros ->. Qed.
  Lemma nth_error_zipw {A B C} (f : A -> B -> C) u v i : nth_error (zipw f u v) i =
    match nth_error u i, nth_error v i with Some a, Some b => Some (f a b) | _, _ => None end.
  Proof.
    revert v i. induction u as [|a u IH]; intros [|b v] [|i]; cbn; try reflexivity; [now destruct (nth_error u i)|]. apply IH.
  Qed.
  Lemma tied_zipw {A B C} (f : A -> B -> C) i j u v : tied i j u -> tied i j v -> tied i j (zipw f u v).
  Proof. unfold tied. rewrite !nth_error_zipw. now intros -> ->. Qed.
  Lemma tied_repeat {A} (x : A) n i j : i < n -> j < n -> tied i j (repeat x n).
  Proof. intros Hi Hj. unfold tied. rewrite !nth_error_repeat by assumption. reflexivity. Qed.
  Lemma tied_nth {A} (v : list A) i j x : tied i j v -> nth i v x = nth j v x.
  Proof.
    unfold tied. intros H. assert (G : forall k, nth k v x = match nth_error v k with Some y => y | None => x end).
    { clear. induction v as [|y v IH]; intros [|k]; cbn; auto. }
    now rewrite !G, H.
  Qed.
  Lemma tied_seq {A} (f : nat -> A) n i j : i < n -> j < n -> f i = f j -> tied i j (map f (seq 0 n)).
  Proof.
    intros Hi Hj E. unfold tied. rewrite !nth_error_map. assert (G : forall k, k < n -> nth_error (seq 0 n) k = Some k).
    { intros k Hk. rewrite (nth_error_nth' _ 0) by now rewrite seq_length. now rewrite seq_nth. }
    rewrite !G by assumption. cbn. now rewrite E.
  Qed.
  (** equal rows *)
  Definition row_eq (M : mat F) (i j : nat) : Prop :=
    i < m_rows M /\ j < m_rows M /\
    forall k, k < m_cols M -> m_stored M i k = m_stored M j k /\ (m_stored M i k = true -> m_entry M i k = m_entry M j k).
  Lemma tied_mv M i j x : row_eq M i j -> tied i j (mv M x).
  Proof.
    intros (Hi & Hj & H). unfold mv. apply tied_seq; auto.
    etransitivity; [apply (fold_left_add_map (fun k => n_mul (m_entry M i k) (nth k x (n_ofZ 0))))|].
    etransitivity; [|symmetry; apply (fold_left_add_map (fun k => n_mul (m_entry M j k) (nth k x (n_ofZ 0))))]. f_equal.
    assert (G : forall l, (forall k, In k l -> k < m_cols M) ->
      map (fun k => n_mul (m_entry M i k) (nth k x (n_ofZ 0))) (filter (m_stored M i) l) = map (fun k => n_mul (m_entry M j k) (nth k x (n_ofZ 0))) (filter (m_stored M j) l)).
    { induction l as [|k l IH]; intros Hl; [reflexivity|]. cbn [filter]. destruct (H k) as [E1 E2]; [apply Hl; now left|].
      rewrite <- E1. specialize (IH (fun k Hk => Hl k (or_intror Hk))). destruct (m_stored M i k); [|exact IH]. cbn [map]. rewrite E2 by reflexivity. f_equal. exact IH. }
    apply G. intros k Hk. apply in_seq in Hk. lia.
  Qed.
  Lemma row_eq_mmulc M v i j : row_eq M i j -> row_eq (mmulc M v) i j.
  Proof.
    intros (Hi & Hj & H). split; [exact Hi|]. split; [exact Hj|]. intros k Hk. destruct (H k Hk) as [E1 E2]. cbn. split; [exact E1|]. intros Hs. now rewrite E2.
  Qed.
  Lemma row_eq_rep {A B} (M : mat F) (R : list A) (C : list B) rel e i j a a' : mrep M R C rel (fun _ _ => e) ->
    nth_error R i = Some a -> nth_error R j = Some a' -> (forall b, In b C -> rel a b = rel a' b) -> row_eq M i j.
  Proof.
    intros (Hr & Hc & H) Ha Ha' E. split; [|split].
    - rewrite Hr. apply nth_error_Some. congruence.
    - rewrite Hr. apply nth_error_Some. congruence.
    - intros k Hk. rewrite Hc in Hk. destruct (nth_error C k) as [b|] eqn:Eb; [|apply nth_error_None in Eb; lia].
      destruct (H i k a b Ha Eb) as [H1 H2], (H j k a' b Ha' Eb) as [H3 H4]. pose proof (E b (nth_error_In _ _ Eb)) as Er.
      split; [congruence|]. intros Hs. rewrite H2, H4 by congruence. reflexivity.
  Qed.
  Lemma rank_lookup_tied (m : list (F * Z)) (v r : vec F) i j : rank_lookup m v = Some r -> tied i j v -> tied i j r.
  Proof.
    intros H. assert (G : forall k, nth_error r k = match nth_error v k with Some x => match fget m x with Some q => Some (n_ofZ q) | None => None end | None => None end).
    { revert r H. induction v as [|x v IH]; intros r H k; cbn in H.
      - injection H as <-. now destruct k.
      - destruct (fget m x) as [q|] eqn:Eq; [|discriminate]. destruct (rank_lookup m v) as [rv|]; [|discriminate]. injection H as <-.
        destruct k; cbn; [now rewrite Eq|]. now apply IH. }
    unfold tied. rewrite !G. now intros ->.
  Qed.
End At.

Section Same.
  Context {S V W : Type} {ES : Eqb S} {EV : Eqb V} {EW : Eqb W} {F : Num} {FOK : NumOK F}.
  Notation data := (dataset S V W F).
  Variables (b : bool) (impf : option (V -> W -> W -> option F)) (ts : list (S * V * W)) (d : data).
  Hypothesis Hb : build b impf ts = Ok d.
  Let R0 : ds_rep ts impf d := build_rep _ _ _ _ Hb.

  Section Sources.
    Variables (s s' : S).
    Hypothesis Hs : In s (sources ts).
    Hypothesis Hs' : In s' (sources ts).
    Hypothesis Same : forall c, says ts s c = says ts s' c.
    Let i := pos s (sources ts).
    Let j := pos s' (sources ts).
    Lemma sc_row : row_eq (sc d) i j.
    Proof. exact (row_eq_rep _ _ _ _ _ i j s s' (rep_sc _ _ _ R0) (nth_error_pos _ _ Hs) (nth_error_pos _ _ Hs') (fun c _ => Same c)). Qed.
    Lemma i_lt : i < num_sources d. Proof. destruct sc_row as (H & _). now rewrite (sc_rows ts impf d R0) in H. Qed.
    Lemma j_lt : j < num_sources d. Proof. destruct sc_row as (_ & H & _). now rewrite (sc_rows ts impf d R0) in H. Qed.
    Lemma tied_counts : tied i j (claim_counts d). Proof. apply tied_mv, sc_row. Qed.
    Lemma tied_update t bel nt : tied i j t -> update_trust t (claim_counts d) (sc d) bel = Some nt -> tied i j nt.
    Proof.
      intros Ht. unfold update_trust. destruct (existsb _ _); [discriminate|]. intros [= <-]. unfold vmul, vdiv.
      apply tied_zipw; [apply tied_zipw; [exact Ht|exact tied_counts]|]. apply tied_mv, row_eq_mmulc, sc_row.
    Qed.
    Lemma crh_loss_row bel : crh_loss d bel i = crh_loss d bel j.
    Proof.
      unfold crh_loss. f_equal. apply map_ext. intros k. do 2 f_equal. destruct sc_row as (_ & _ & H). rewrite (sc_cols ts impf d R0) in H.
      assert (G : forall l, (forall q, In q l -> q < num_claims d) ->
        map (fun q => n_mul (m_entry (sc d) i q) (crh_z d bel q k)) (filter (m_stored (sc d) i) l) = map (fun q => n_mul (m_entry (sc d) j q) (crh_z d bel q k)) (filter (m_stored (sc d) j) l)).
      { induction l as [|q l IH]; intros Hl; [reflexivity|]. cbn [filter]. destruct (H q) as [E1 E2]; [apply Hl; now left|].
        rewrite <- E1. specialize (IH (fun k Hk => Hl k (or_intror Hk))). destruct (m_stored (sc d) i q); [|exact IH]. cbn [map]. rewrite E2 by reflexivity. f_equal. exact IH. }
      apply G. intros q Hq. apply in_seq in Hq. lia.
    Qed.
    Lemma tied_round a x : tied i j (fst x) -> match round a d x with UNext _ _ x' => tied i j (fst x') | _ => True end.
    Proof.
      destruct x as [t bel]. cbn [fst]. intros Ht. destruct a; cbn [round].
      - cbn [sums_upd]. destruct (pymax (mv (sc d) bel)); [|exact I]. destruct (pymax _); [|exact I]. cbn [fst]. apply tied_map, tied_mv, sc_row.
      - cbn [avlog_upd]. destruct (pymax (vmul _ _)); [|exact I]. destruct (pymax _); [|exact I]. cbn [fst]. apply tied_map. unfold vmul, avlog_weights, vdiv.
        apply tied_zipw; [apply tied_zipw; [apply tied_map|]; exact tied_counts|apply tied_mv, sc_row].
      - cbn [inv_upd]. destruct (update_trust _ _ _ _) as [nt|] eqn:U; [|exact I]. apply (tied_update _ _ _ Ht) in U. destruct (pymax nt); [|exact I]. destruct (pymax _); [|exact I].
        cbn [fst]. now apply tied_map.
      - cbn [pooled_upd]. destruct (update_trust _ _ _ _) as [nt|] eqn:U; [|exact I]. apply (tied_update _ _ _ Ht) in U. destruct (pymax nt); [|exact I]. destruct (pymax _); [|exact I].
        cbn [fst]. now apply tied_map.
      - cbn [tf_upd]. destruct (get_log_trust t); [|exact I]. cbn [fst]. apply tied_mv. unfold tf_a_mat. destruct sc_row as (H1 & H2 & H3).
        split; [exact H1|]. split; [exact H2|]. intros k Hk. cbn in Hk. destruct (H3 k Hk) as [E1 E2]. cbn. split; [exact E1|]. intros Hst. rewrite E2 by exact Hst. f_equal.
        apply tied_nth. unfold sdivv. apply tied_map, tied_counts.
      - cbn [crh_upd]. cbn [fst]. apply tied_map. apply tied_seq; [exact i_lt|exact j_lt|]. f_equal. apply crh_loss_row.
      - cbn [usums_upd]. unfold rescale1. destruct (npmax (mv (sc d) bel)) as [m|]; [|exact I]. destruct (npmax _) as [m'|]; [|exact I]. cbn [fst].
        destruct (n_ltb _ m); [apply tied_map|]; apply tied_mv, sc_row.
    Qed.
    Lemma tied_init a p x0 : init a p d = Some x0 -> tied i j (fst x0).
    Proof.
      pose proof i_lt. pose proof j_lt.
      destruct a; cbn [init]; try (destruct (prior_beliefs p d); [|discriminate]); intros H1; injection H1 as <-; cbn [fst]; now apply tied_repeat.
    Qed.
    Lemma tied_scores a p x0 k : init a p d = Some x0 -> tied i j (fst (scores a d x0 k)).
    Proof.
      intros H. apply tied_init in H. induction k as [|k IH]; [exact H|]. cbn [scores]. pose proof (tied_round a _ IH) as Q. destruct (round a d (scores a d x0 k)); auto.
    Qed.
    Lemma tied_final (a : alg F) it (x y : vec F * vec F) : final a it x = Ok y -> tied i j (fst x) -> tied i j (fst y).
    Proof.
      destruct a; cbn [final]; try (intros [= <-]; auto; fail). destruct it; try discriminate.
      destruct (get_ranking_vector (fst x)) as [t|] eqn:E1; [|discriminate]. destruct (get_ranking_vector (snd x)); [|discriminate]. intros [= <-]. cbn [fst].
      exact (rank_lookup_tied _ _ _ i j E1).
    Qed.
    (** In any arithmetic: two sources making the same claims have the same trust, in the final result and in every partial result. *)
    Theorem C42_same_claims_same_trust clock fuel a p it lg :
      (forall r o', run clock fuel (AObj a p it lg) d = (Ok r, o') -> trust_of r s = trust_of r s') /\
      (forall l o', run_iter clock fuel (AObj a p it lg) d = (Ok l, o') -> forall r, In r l -> trust_of r s = trust_of r s') /\
      (forall r, voting_run clock d = Ok r -> trust_of r s = trust_of r s').
    Proof.
      assert (T : forall v : vec F, tied i j v -> dget (tdict ts v) s = dget (tdict ts v) s').
      { intros v Hv. unfold tdict. rewrite !(dget_map_fun (fun s => nth (pos s (sources ts)) v (n_ofZ 0))). apply mem_In in Hs, Hs'. rewrite Hs, Hs'. f_equal. exact (tied_nth _ _ _ _ Hv). }
      split; [|split].
      - intros r o' H. apply (run_cases b impf ts d Hb) in H. destruct H as (NE & x0 & k & it' & E0 & _ & x & Ef & ->). unfold trust_of. cbn [r_trust].
        apply T. exact (tied_final _ _ _ _ Ef (tied_scores _ _ _ _ E0)).
      - intros l o' H r Hr. assert (NE : ts <> []) by (intros E; rewrite E in Hs; destruct Hs).
        rewrite (run_iter_char clock ts impf d R0 NE) in H. destruct (init a p d) as [x0|] eqn:E0; [|discriminate].
        destruct (it_loop _ _ _ fuel (reset it) 0) as [[q k] it']. destruct q as [[]|e]; [|discriminate]. destruct (final _ _ _); [|discriminate]. injection H as <- _.
        assert (P : forall n m, trust_of (partial_result clock ts d a x0 n m) s = trust_of (partial_result clock ts d a x0 n m) s').
        { intros n m. unfold trust_of, partial_result. cbn [r_trust]. apply T. exact (tied_scores _ _ _ _ E0). }
        unfold partial_results, initial_log in Hr. apply in_app_or in Hr. destruct Hr as [Hr|Hr].
        + destruct (logs_initial a); [|destruct Hr]. destruct Hr as [<-|[]]. apply P.
        + apply in_map_iff in Hr. destruct Hr as (m & <- & _). apply P.
      - intros r H. unfold voting_run in H. destruct (Nat.eqb (num_claims d) 0); [discriminate|]. destruct (npmax _); [|discriminate].
        rewrite (trust_dict_vec ts impf d R0) in H by apply repeat_length. destruct (get_belief_dict d _); [|discriminate]. injection H as <-. unfold trust_of. cbn [r_trust].
        apply T. apply tied_repeat; [exact i_lt|exact j_lt].
    Qed.
  End Sources.

  Section Claims.
    Variables (c c' : V * W).
    Hypothesis Hc : In c (claims ts).
    Hypothesis Hc' : In c' (claims ts).
    Hypothesis Same : forall s, says ts s c = says ts s c'.
    Let i := pos c (claims ts).
    Let j := pos c' (claims ts).
    Lemma scT_row : row_eq (mtr (sc d)) i j.
    Proof. exact (row_eq_rep _ _ _ _ _ i j c c' (mrep_tr _ _ _ _ _ (rep_sc _ _ _ R0)) (nth_error_pos _ _ Hc) (nth_error_pos _ _ Hc') (fun s _ => Same s)). Qed.
    (** TruthFinder: without implications; PooledInvestment: no (the belief also depends on the rivals of the claim) *)
    Definition support_only (a : alg F) : Prop :=
      match a with PooledInvestment _ => False | TruthFinder _ _ _ => impf = None | _ => True end.
    Lemma tied_round_c a x : support_only a -> match round a d x with UNext _ _ x' => tied i j (snd x') | _ => True end.
    Proof.
      destruct x as [t bel]. intros Ha. destruct a as [| |g|g|rho gamma t0|eps|]; cbn [round].
      - cbn [sums_upd]. destruct (pymax (mv (sc d) bel)); [|exact I]. destruct (pymax _); [|exact I]. cbn [snd]. apply tied_map, tied_mv, scT_row.
      - cbn [avlog_upd]. destruct (pymax (vmul _ _)); [|exact I]. destruct (pymax _); [|exact I]. cbn [snd]. apply tied_map, tied_mv, scT_row.
      - cbn [inv_upd]. destruct (update_trust _ _ _ _) as [nt|] eqn:U; [|exact I]. destruct (pymax nt); [|exact I]. destruct (pymax _); [|exact I].
        cbn [snd]. apply tied_map, tied_map, tied_mv, scT_row.
      - destruct Ha.
      - cbn [tf_upd]. destruct (get_log_trust t); [|exact I]. cbn [snd]. apply tied_map, tied_mv. unfold tf_b_mat. destruct scT_row as (H1 & H2 & H3).
        split; [exact H1|]. split; [exact H2|]. intros k Hk. cbn [madd m_cols] in Hk. destruct (H3 k Hk) as [E1 E2].
        assert (Z : forall i k, i < num_claims d -> m_stored (smul rho (mm (mtr (imp d)) (mtr (sc d)))) i k = false).
        { intros i0 k0 Hi0. cbn [smul mm m_stored]. apply not_true_is_false. intros Ex. apply existsb_exists in Ex. destruct Ex as (q & Hq & Ex). apply andb_true_iff in Ex. destruct Ex as [Ex _].
          cbn [mtr m_stored m_cols] in *. apply in_seq in Hq. rewrite (imp_rows ts impf d R0) in Hq.
          destruct (nth_error (claims ts) i0) as [a1|] eqn:A1; [|apply nth_error_None in A1; rewrite (nc_rep ts impf d R0) in Hi0; lia].
          destruct (nth_error (claims ts) q) as [a2|] eqn:A2; [|apply nth_error_None in A2; rewrite (nc_rep ts impf d R0) in Hq; lia].
          destruct (rep_imp _ _ _ R0) as (_ & _ & H). destruct (H q i0 a2 a1 A2 A1) as [Q _]. rewrite Q in Ex. cbn in Ha. rewrite Ha in Ex.
          unfold imp_val in Ex. destruct (_ && _)%bool; discriminate. }
        cbn [mtr m_rows] in H1, H2. rewrite (sc_cols ts impf d R0) in H1, H2. unfold madd. cbn [m_stored m_entry].
        rewrite !Z by assumption. rewrite !orb_false_r, <- E1. destruct (m_stored (mtr (sc d)) i k) eqn:Es; [|auto]. rewrite E2 by reflexivity. auto.
      - cbn [crh_upd]. cbn [snd]. apply tied_map, tied_mv, scT_row.
      - cbn [usums_upd]. unfold rescale1. destruct (npmax (mv (sc d) bel)) as [m|]; [|exact I]. destruct (npmax _) as [m'|]; [|exact I]. cbn [snd].
        destruct (n_ltb _ m'); [apply tied_map|]; apply tied_mv, scT_row.
    Qed.
    Lemma tied_final_c (a : alg F) it (x y : vec F * vec F) : final a it x = Ok y -> tied i j (snd x) -> tied i j (snd y).
    Proof.
      destruct a; cbn [final]; try (intros [= <-]; auto; fail). destruct it; try discriminate.
      destruct (get_ranking_vector (fst x)) as [t|] eqn:E1; [|discriminate]. destruct (get_ranking_vector (snd x)) eqn:E2; [|discriminate]. intros [= <-]. cbn [snd].
      exact (rank_lookup_tied _ _ _ i j E2).
    Qed.
    Lemma dget_bdict (v : vec F) (c0 : V * W) : In c0 (claims ts) -> match dget (bdict ts v) (fst c0) with Some m => dget m (snd c0) | None => None end = Some (nth (pos c0 (claims ts)) v (n_ofZ 0 : F)).
    Proof.
      intros H.
      pose proof (reports_intro ts (Result (map (fun s => (s, n_ofZ 0 : F)) (sources ts)) (bdict ts v) (n_ofZ 0) None) (fun _ => n_ofZ 0) (fun c => nth (pos c (claims ts)) v (n_ofZ 0)) eq_refl eq_refl) as (_ & Q & _).
      specialize (Q c0). unfold belief_of in Q. cbn [r_belief] in Q. rewrite Q. apply mem_In in H. now rewrite H.
    Qed.
    (** In any arithmetic: two claims made by the same sources have the same belief after any round. *)
    Theorem C42_same_sources_same_belief clock fuel a p it lg : support_only a ->
      (forall r o' k, run clock fuel (AObj a p it lg) d = (Ok r, o') -> r_iterations r = Some k -> k <> 0 -> belief_of r c = belief_of r c') /\
      (forall r, voting_run clock d = Ok r -> belief_of r c = belief_of r c').
    Proof.
      intros Ha.
      assert (T : forall v : vec F, tied i j v -> match dget (bdict ts v) (fst c) with Some m => dget m (snd c) | None => None end = match dget (bdict ts v) (fst c') with Some m => dget m (snd c') | None => None end).
      { intros v Hv. rewrite !dget_bdict by assumption. f_equal. exact (tied_nth _ _ _ _ Hv). }
      split.
      - intros r o' k H Hk Hk0. apply (run_cases b impf ts d Hb) in H. destruct H as (NE & x0 & k' & it' & E0 & El & x & Ef & ->). unfold belief_of. cbn [r_belief].
        cbn in Hk. injection Hk as ->. destruct k as [|k]; [congruence|].
        apply T. apply (tied_final_c _ _ _ _ Ef).
        (* the round before did not break: otherwise the loop would have ended there *)
        assert (NB : exists u v x', round a d (scores a d x0 k) = UNext u v x').
        { pose proof (round_shaped ts impf d R0 NE a _ (scores_shaped (F:=F) clock ts impf d R0 NE a x0 k (init_shaped ts impf d R0 a p x0 E0))) as Sh.
          destruct (round a d (scores a d x0 k)) as [|e|u v x'] eqn:Er; [exfalso|contradiction|eauto].
          assert (St : stops a d x0 k = true) by (unfold stops; now rewrite Er).
          assert (G : forall fuel it m k1 it1, m <= k -> it_loop (cmp1 a d x0) (cmp2 a d x0) (stops a d x0) fuel it m = ((Ok tt, k1), it1) -> k1 <= k).
          { clear -St. induction fuel as [|fu IH]; intros it m k1 it1 Hm H; cbn [it_loop] in H; [discriminate|].
            destruct (finished it) as [[|]|]; [injection H as <- _; exact Hm| |discriminate].
            destruct (stops a d x0 m) eqn:Em; [injection H as <- _; exact Hm|].
            destruct (compare it (cmp1 a d x0 m) (cmp2 a d x0 m)) as [[[]|] it2]; [|discriminate]. apply IH in H; [exact H|].
            destruct (Nat.eq_dec m k) as [->|]; [congruence|lia]. }
          specialize (G _ _ 0 _ _ (Nat.le_0_l k) El). lia. }
        destruct NB as (u & v & x' & Er). cbn [scores]. pose proof (tied_round_c a (scores a d x0 k) Ha) as Q. rewrite Er in *. exact Q.
      - intros r H. unfold voting_run in H. destruct (Nat.eqb (num_claims d) 0); [discriminate|]. destruct (npmax _) as [m|]; [|discriminate].
        rewrite (trust_dict_vec ts impf d R0) in H by apply repeat_length.
        rewrite (belief_dict_vec ts impf d R0) in H by (rewrite vdivs_length; apply (source_counts_length ts impf d R0)). injection H as <-. unfold belief_of. cbn [r_belief].
        apply T. apply tied_map. unfold source_counts. apply tied_mv, scT_row.
    Qed.
  End Claims.
End Same.

Local Open Scope R_scope.
Section More.
  Context {S V W : Type} {ES : Eqb S} {EV : Eqb V} {EW : Eqb W}.
  Notation data := (dataset S V W XR).
  Notation claim := (V * W)%type.
  Notation rscores := (@rscores S V W).
  Variables (b : bool) (f : option (V -> W -> W -> option R)) (ts : list (S * V * W)) (d : data).
  Hypothesis Hb : build b (real_imp f) ts = Ok d.
  Let R0 : ds_rep ts (real_imp f) d := build_rep _ _ _ _ Hb.

  (** algorithms in which the belief in a claim does not decrease with more support *)
  Definition supportive (a : alg XR) : Prop :=
    match a with
    | Sums | AverageLog | UnboundedSums => True
    | Investment (Fin g) => 0 <= g
    | CRH (Fin eps) => 0 < eps
    | TruthFinder (Fin _) (Fin gamma) (Fin t0) => f = None /\ 0 <= gamma /\ 0 <= t0 < 1
    | _ => False
    end.
  Lemma supportive_ok a : supportive a -> params_ok a.
  Proof. destruct a as [| |[]|[]|[] [] []|[]|]; cbn; tauto. Qed.
  Lemma rsum_incl_le {A} (p q : A -> bool) (g : A -> R) (l : list A) : (forall x, In x l -> 0 <= g x) -> (forall x, p x = true -> q x = true) -> rsum g (filter p l) <= rsum g (filter q l).
  Proof.
    intros Hg Hpq. rewrite !rsum_filter. apply rsum_le. intros x Hx. specialize (Hg x Hx). specialize (Hpq x). destruct (p x); [rewrite Hpq by reflexivity; lra|destruct (q x); lra].
  Qed.
  Lemma by_max_mono {A} (l : list A) (g : A -> R) x y : 0 < rmax g l -> g x <= g y -> by_max l g x <= by_max l g y.
  Proof. intros P H. unfold by_max, Rdiv. apply Rmult_le_compat_r; [left; now apply Rinv_0_lt_compat|exact H]. Qed.
  Lemma downscale_mono {A} (l : list A) (g : A -> R) x y : g x <= g y -> downscale l g x <= downscale l g y.
  Proof. intros H. unfold downscale. destruct (rltb _ _); lra. Qed.
  Lemma downscale_nonneg {A} (l : list A) (g : A -> R) x : 0 <= g x -> 0 <= downscale l g x.
  Proof. intros H. unfold downscale. destruct (rltb _ _); lra. Qed.

  (** what has to hold before a round *)
  Definition ready (a : alg XR) (x : rscores) : Prop :=
    good ts a x /\ match a with
                   | UnboundedSums => forall c, In c (claims ts) -> 0 <= snd x c
                   | TruthFinder _ _ _ => forall s, In s (sources ts) -> 0 <= fst x s
                   | _ => True
                   end.
  Lemma ready_start a p x0 : supportive a -> start ts a p = Some x0 -> ready a x0.
  Proof.
    intros Ha E. split; [now apply (pack_start_good ts a p x0 (supportive_ok a Ha))|].
    destruct a as [| |[]|[]|[] [] []|[]|]; cbn in Ha; try tauto; cbn in E.
    - injection E as <-. intros s _. cbn. tauto.
    - destruct (prior_spec ts p) as [bel|] eqn:Ep; [|discriminate]. injection E as <-. intros c Hc. left. exact (prior_pos ts p bel Ep c Hc).
  Qed.
  Lemma ready_step a x : ts <> [] -> supportive a -> data_ok ts a -> ready a x -> ready a (step_of f ts a x).
  Proof.
    intros NE Ha Hd [G H]. split; [exact (proj2 (pack_round b f ts d Hb NE a x (supportive_ok a Ha) Hd G))|].
    destruct a as [| |[]|[]|[] [] []|[]|]; cbn in Ha; try tauto; cbn [step_of].
    - intros s Hs. left. now apply (tf_step_range ts f).
    - intros c Hc. cbn [snd usums_step]. apply downscale_nonneg. apply rsum_nonneg. intros s _. apply rsum_nonneg. intros c' Hc'. apply H. now apply claims_of_claims in Hc'.
  Qed.
  Lemma tau_nonneg t : 0 <= t < 1 -> 0 <= - ln (1 - t).
  Proof.
    intros [H1 H2]. destruct (Req_dec t 0) as [->|N]; [rewrite Rminus_0_r, ln_1; lra|]. assert (ln (1 - t) < 0); [|lra]. rewrite <- ln_1. apply ln_increasing; lra.
  Qed.
  Lemma step_more_support a x c c' : ts <> [] -> supportive a -> data_ok ts a -> ready a x -> In c (claims ts) -> In c' (claims ts) ->
    (forall s, says ts s c = true -> says ts s c' = true) -> snd (step_of f ts a x) c <= snd (step_of f ts a x) c'.
  Proof.
    intros NE Ha Hd [G H] Hc Hc' Hsub.
    assert (Sup : forall t, (forall s, In s (sources ts) -> 0 <= t s) -> total_trust ts t c <= total_trust ts t c') by (intros t Ht; now apply rsum_incl_le).
    destruct a as [| |[]|[]|[] [] []|[]|]; cbn in Ha; try tauto; cbn [step_of good data_ok] in *.
    - destruct (sums_round ts (real_imp f) d R0 NE x G) as [_ _].
      assert (P1 : forall s, In s (sources ts) -> 0 < total_belief ts (snd x) s) by (intros; now apply total_belief_pos).
      cbn [snd sums_step]. apply by_max_mono; [|apply Sup; intros s Hs; left; auto].
      apply rmax_cl_pos; [exact NE|]. intros q Hq. now apply total_trust_pos.
    - destruct (avlog_round ts (real_imp f) d R0 NE x Hd G) as (_ & _ & _ & Pm). cbn [snd avlog_step].
      apply (by_max_mono (claims ts) (total_trust ts (avlog_trust ts (snd x)))); [exact Pm|]. apply Sup. intros s Hs. apply avlog_trust_nonneg; [apply G|exact Hs].
    - cbn [snd inv_step]. assert (Pr : forall s, In s (sources ts) -> 0 < returned ts x s) by (intros; now apply returned_pos).
      apply by_max_mono.
      + apply (rmax_pos _ _ c Hc). apply Rpower_pos.
      + apply Rle_Rpower_l; [exact Ha|]. split; [now apply invested_pos|]. apply Sup. intros s Hs. left. now apply invests_pos.
    - destruct Ha as (Hf & Hg & _). cbn [snd tf_step]. assert (T : forall s, In s (sources ts) -> 0 <= - ln (1 - fst x s)).
      { intros s Hs. apply tau_nonneg. split; [now apply H|now apply G]. }
      specialize (Sup _ T). set (u := total_trust ts (fun s => - ln (1 - fst x s)) c) in *. set (v := total_trust ts (fun s => - ln (1 - fst x s)) c') in *.
      assert (Z : forall q, rsum (fun c'0 => implication f c'0 q * total_trust ts (fun s => - ln (1 - fst x s)) c'0) (claims ts) = 0).
      { intros q. rewrite (rsum_ext _ (fun _ => 0)); [apply rsum_zero|]. intros q' _. unfold implication. rewrite Hf. lra. }
      rewrite !Z. assert (Le : r0 * (u + r * 0) <= r0 * (v + r * 0)) by (apply Rmult_le_compat_l; lra).
      assert (Ex : exp (- (r0 * (v + r * 0))) <= exp (- (r0 * (u + r * 0)))).
      { destruct (Rle_lt_or_eq_dec _ _ Le) as [L|E]; [left; apply exp_increasing; lra|right; do 2 f_equal; lra]. }
      pose proof (exp_pos (- (r0 * (v + r * 0)))). unfold Rdiv. rewrite !Rmult_1_l. apply Rinv_le_contravar; lra.
    - pose proof (crh_total_pos ts NE r x Ha) as TP. change (total_trust ts (fst (crh_step ts r x)) c / rsum (fst (crh_step ts r x)) (sources ts) <= total_trust ts (fst (crh_step ts r x)) c' / rsum (fst (crh_step ts r x)) (sources ts)).
      unfold Rdiv. apply Rmult_le_compat_r; [left; now apply Rinv_0_lt_compat|]. apply Sup. intros s Hs. pose proof (crh_trust_ge ts r x s Ha Hs). lra.
    - cbn [snd usums_step]. apply downscale_mono. apply Sup. intros s Hs. apply rsum_nonneg. intros q Hq. apply H. now apply claims_of_claims in Hq.
  Qed.
  Lemma step_more_claims a x s s' : ts <> [] -> a = Sums \/ a = UnboundedSums -> ready a x -> In s (sources ts) -> In s' (sources ts) ->
    (forall c, says ts s c = true -> says ts s' c = true) -> fst (step_of f ts a x) s <= fst (step_of f ts a x) s'.
  Proof.
    intros NE Ha [G H] Hs Hs' Hsub. destruct Ha as [->| ->]; cbn [step_of good] in *.
    - cbn [fst sums_step]. apply by_max_mono; [apply rmax_src_pos; [exact NE|intros; now apply total_belief_pos]|]. apply rsum_incl_le; [|exact Hsub]. intros c Hc. left. auto.
    - cbn [fst usums_step]. apply downscale_mono. apply rsum_incl_le; [|exact Hsub]. exact H.
  Qed.
  Lemma rrank_mono {A} (g : A -> R) l x y : g x <= g y -> (rrank g l x <= rrank g l y)%nat.
  Proof.
    intros H. unfold rrank. apply NoDup_incl_length; [apply NoDup_nodup|]. intros v Hv. apply nodup_In, filter_In in Hv. apply nodup_In, filter_In.
    destruct Hv as [Hv L]. split; [exact Hv|]. destruct (rltb_spec v (g x)); [|discriminate]. apply rltb_true. lra.
  Qed.
  (** what is reported: the scores of the last round, or (UnboundedSums) their ranks *)
  Definition reported (a : alg XR) (x : rscores) : rscores := match a with UnboundedSums => ranks ts x | _ => x end.
  Lemma pack_run clock fuel a p it lg r o' k : params_ok a -> data_ok ts a -> run clock fuel (AObj a p it lg) d = (Ok r, o') -> r_iterations r = Some k ->
    ts <> [] /\ exists x0, start ts a p = Some x0 /\ reports_real ts r (reported a (rounds (step_of f ts a) x0 k)).
  Proof.
    intros Hp Hd H Hk. apply (run_cases b (real_imp f) ts d Hb) in H. destruct H as (NE & x & k' & it' & E0 & El & y & Ef & ->). split; [exact NE|].
    cbn in Hk. injection Hk as ->. pose proof (eq_trans (eq_sym (pack_start b f ts d Hb NE a p Hp)) E0) as E1.
    destruct (start ts a p) as [x0|] eqn:Es; [|discriminate]. cbn in E1. injection E1 as <-. exists x0. split; [reflexivity|].
    pose proof (pack_start_good ts a p x0 Hp Es) as G. pose proof (proj1 (pack_scores b f ts d Hb NE a x0 Hp Hd G k)) as Sc. rewrite Sc in Ef.
    assert (Da : a = UnboundedSums \/ a <> UnboundedSums) by (destruct a; (left; reflexivity) || (right; discriminate)). destruct Da as [->|Da].
    - destruct it'; try discriminate. rewrite denote_ranks in Ef. injection Ef as <-. apply reports_denote; reflexivity.
    - assert (Ey : y = denote ts (rounds (step_of f ts a) x0 k)) by exact (final_ok a it' _ y Da Ef). subst y.
      assert (Er : reported a (rounds (step_of f ts a) x0 k) = rounds (step_of f ts a) x0 k) by (destruct a; reflexivity || congruence). rewrite Er. apply reports_denote; reflexivity.
  Qed.
  Lemma rounds_ready a p x0 k : ts <> [] -> supportive a -> data_ok ts a -> start ts a p = Some x0 -> ready a (rounds (step_of f ts a) x0 k).
  Proof. intros NE Ha Hd E. induction k as [|k IH]; [now apply (ready_start a p)|]. cbn [rounds]. now apply ready_step. Qed.

  (** A claim whose supporters include all supporters of another is believed at least as much, after any round. *)
  Theorem C42_more_support_belief clock fuel a p it lg r o' k c c' : supportive a -> data_ok ts a ->
    run clock fuel (AObj a p it lg) d = (Ok r, o') -> r_iterations r = Some k -> k <> 0%nat ->
    In c (claims ts) -> In c' (claims ts) -> (forall s, says ts s c = true -> says ts s c' = true) ->
    exists q q', belief_of r c = Some (Fin q) /\ belief_of r c' = Some (Fin q') /\ q <= q'.
  Proof.
    intros Ha Hd H Hk Hk0 Hc Hc' Hsub. destruct (pack_run clock fuel a p it lg r o' k (supportive_ok a Ha) Hd H Hk) as (NE & x0 & E0 & Rp).
    eexists. eexists. split; [exact (reports_belief ts r _ c Rp Hc)|]. split; [exact (reports_belief ts r _ c' Rp Hc')|].
    destruct k as [|k]; [congruence|]. cbn [rounds]. pose proof (rounds_ready a p x0 k NE Ha Hd E0) as Rd.
    pose proof (step_more_support a _ c c' NE Ha Hd Rd Hc Hc' Hsub) as L.
    destruct a; cbn [reported]; try exact L. cbn [ranks snd]. apply le_INR. now apply rrank_mono.
  Qed.
  (** A source whose claims include all claims of another is trusted at least as much (Sums, UnboundedSums), at any time. *)
  Theorem C42_more_claims_trust clock fuel a p it lg r o' s s' : a = Sums \/ a = UnboundedSums ->
    run clock fuel (AObj a p it lg) d = (Ok r, o') ->
    In s (sources ts) -> In s' (sources ts) -> (forall c, says ts s c = true -> says ts s' c = true) ->
    exists q q', trust_of r s = Some (Fin q) /\ trust_of r s' = Some (Fin q') /\ q <= q'.
  Proof.
    intros Ha H Hs Hs' Hsub. assert (Sa : supportive a) by (destruct Ha as [->| ->]; exact I). assert (Hd : data_ok ts a) by (destruct Ha as [->| ->]; exact I).
    assert (Hk : exists k, r_iterations r = Some k) by (pose proof (run_cases b (real_imp f) ts d Hb _ _ _ _ _ _ _ _ H) as (_ & x & k & it' & _ & _ & y & _ & ->); exists k; reflexivity).
    destruct Hk as [k Hk].
    destruct (pack_run clock fuel a p it lg r o' k (supportive_ok a Sa) Hd H Hk) as (NE & x0 & E0 & Rp).
    eexists. eexists. split; [exact (reports_trust ts r _ s Rp Hs)|]. split; [exact (reports_trust ts r _ s' Rp Hs')|].
    assert (L : fst (rounds (step_of f ts a) x0 k) s <= fst (rounds (step_of f ts a) x0 k) s').
    { destruct k as [|k].
      - cbn [rounds]. assert (Z : fst x0 = fun _ => 0); [|rewrite Z; lra]. destruct Ha as [->| ->]; cbn in E0; (destruct (prior_spec ts p); [|discriminate]); injection E0 as <-; reflexivity.
      - cbn [rounds]. apply step_more_claims; auto. now apply (rounds_ready a p). }
    destruct a; cbn [reported]; try exact L. cbn [ranks fst]. apply le_INR. now apply rrank_mono.
  Qed.
  Theorem C42_more_support_voting clock r c c' : voting_run clock d = Ok r ->
    In c (claims ts) -> In c' (claims ts) -> (forall s, says ts s c = true -> says ts s c' = true) ->
    exists q q', belief_of r c = Some (Fin q) /\ belief_of r c' = Some (Fin q') /\ q <= q'.
  Proof.
    intros H Hc Hc' Hsub. assert (NE : ts <> []) by (intros E; rewrite E in Hc; destruct Hc).
    destruct (C31_voting b f ts d Hb clock NE) as (r' & E & _ & Rp). rewrite H in E. injection E as <-.
    eexists. eexists. split; [exact (reports_belief ts r _ c Rp Hc)|]. split; [exact (reports_belief ts r _ c' Rp Hc')|]. cbn [snd].
    assert (P : 0 < rmax (n_supporters ts) (claims ts)) by (apply rmax_cl_pos; [exact NE|intros; now apply n_supporters_pos]).
    unfold Rdiv. apply Rmult_le_compat_r; [left; now apply Rinv_0_lt_compat|]. unfold n_supporters. apply le_INR.
    apply NoDup_incl_length; [apply NoDup_filter, sources_NoDup|]. intros s Hs. apply filter_In in Hs. apply filter_In. split; [tauto|]. apply Hsub. tauto.
  Qed.
End More.

(** ** Non-vacuity: in vs2, sources 1 and 2 make the same claims; claims (0,2) and (7,1) have the same supporter; one more source *)
Module SupportExamples.
  Import AlgExamples.
  Example same_claims : In 1%nat (sources vs2) /\ In 2%nat (sources vs2) /\ forall c, says vs2 1%nat c = says vs2 2%nat c.
  Proof.
    split; [now left|]. split; [right; now left|]. intros [x w]. unfold says, first_claim, vs2. cbn.
    destruct x as [|x]; reflexivity.
  Qed.
  Example same_sources : In (0, 2)%nat (claims vs2) /\ In (7, 1)%nat (claims vs2) /\ forall s, says vs2 s (0, 2)%nat = says vs2 s (7, 1)%nat.
  Proof.
    split; [cbn; tauto|]. split; [cbn; tauto|]. intros s. destruct s as [|[|[|[|s]]]]; reflexivity.
  Qed.
  Definition vs3 : list (nat * nat * nat) := (4, 7, 1)%nat :: vs2.
  Example more_support : In (0, 2)%nat (claims vs3) /\ In (7, 1)%nat (claims vs3) /\ (forall s, says vs3 s (0, 2)%nat = true -> says vs3 s (7, 1)%nat = true) /\
    (exists s, says vs3 s (7, 1)%nat = true /\ says vs3 s (0, 2)%nat = false) /\ NoDup (sv_pairs vs3).
  Proof.
    split; [cbn; tauto|]. split; [cbn; tauto|]. split; [intros s; destruct s as [|[|[|[|[|s]]]]]; cbn; congruence|]. split; [exists 4%nat; split; reflexivity|].
    unfold vs3, vs2, sv_pairs; cbn. repeat constructor; cbn; intuition congruence.
  Qed.
End SupportExamples.
