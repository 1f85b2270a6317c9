(** Each iterative algorithm as: initial scores, one pure round, final step; and run / run_iter in those terms.
    Valid for every number type, in particular for IEEE floats. *)
From Verif Require Import Base Num Sparse Spec Dataset DatasetProofs DatasetRep Iterators Algorithms Driver.

Section Rounds.
  Context {S V W : Type} {ES : Eqb S} {EV : Eqb V} {EW : Eqb W} {F : Num} {FOK : NumOK F}.
  Notation data := (dataset S V W F).
  Notation claim := (V * W)%type.
  Variable clock : nat -> F.

  (** initial (trust, belief); None: the priors value is invalid *)
  Definition prior_beliefs (p : prior) (d : data) : option (vec F) :=
    match p with
    | FIXED => Some (vfull (num_claims d) (lit 1 2))
    | VOTED => Some (vdiv (source_counts d) (mv (mut_ex d) (source_counts d)))
    | COUNT => Some (source_counts d)
    | UNIFORM => Some (sdivv (n_ofZ 1) (mv (mut_ex d) (vones (num_claims d))))
    | BadPrior => None
    end.
  Definition uses_priors (a : alg F) : bool := match a with TruthFinder _ _ _ | CRH _ => false | _ => true end.
  Definition init (a : alg F) (p : prior) (d : data) : option (vec F * vec F) :=
    match a with
    | TruthFinder _ _ t0 => Some (vfull (num_sources d) t0, vzeros (num_claims d))
    | CRH _ => Some (vzeros (num_sources d), vdivs (source_counts d) (n_ofZ (Z.of_nat (num_sources d))))
    | Investment _ | PooledInvestment _ =>
        match prior_beliefs p d with Some b => Some (vones (num_sources d), b) | None => None end
    | _ => match prior_beliefs p d with Some b => Some (vzeros (num_sources d), b) | None => None end
    end.
  (** one round *)
  Definition round (a : alg F) (d : data) : vec F * vec F -> uout F :=
    match a with
    | Sums => sums_upd d
    | AverageLog => avlog_upd d
    | Investment g => inv_upd g d
    | PooledInvestment g => pooled_upd g d
    | TruthFinder rho gamma _ => tf_upd rho gamma d
    | CRH eps => crh_upd eps d
    | UnboundedSums => usums_upd d
    end.
  (** (trust, belief) after k rounds; constant once the algorithm stops by itself *)
  Fixpoint scores (a : alg F) (d : data) (x0 : vec F * vec F) (k : nat) : vec F * vec F :=
    match k with
    | O => x0
    | Datatypes.S n => match round a d (scores a d x0 n) with UNext _ _ x => x | _ => scores a d x0 n end
    end.
  Definition cmp1 a d x0 k : vec F := match round a d (scores a d x0 k) with UNext u _ _ => u | _ => [] end.
  Definition cmp2 a d x0 k : vec F := match round a d (scores a d x0 k) with UNext _ v _ => v | _ => [] end.
  (** early finish: the algorithm stops by itself before round k+1 *)
  Definition stops a d x0 k : bool := match round a d (scores a d x0 k) with UBreak => true | _ => false end.
  (** what is returned for the scores of the last round *)
  Definition final (a : alg F) (it : iterator F) (x : vec F * vec F) : res aerr (vec F * vec F) :=
    match a with
    | UnboundedSums =>
        match it with
        | IOrd _ _ _ =>
            match get_ranking_vector (fst x), get_ranking_vector (snd x) with
            | Some t, Some b => Ok (t, b)
            | _, _ => Err KeyErr
            end
        | _ => Err NoSuchMethod
        end
    | _ => Ok x
    end.
  (** whether the initial scores are logged *)
  Definition logs_initial (a : alg F) : bool := match a with CRH _ => false | _ => true end.

  (** scores as labelled tables *)
  Definition tdict (ts : list (S * V * W)) (v : vec F) : dict S F :=
    map (fun s => (s, nth (pos s (sources ts)) v (n_ofZ 0))) (sources ts).
  Definition bdict (ts : list (S * V * W)) (v : vec F) : dict V (dict W F) :=
    beliefs_of (claims ts) (fun c => nth (pos c (claims ts)) v (n_ofZ 0)).

  (** ** Shapes *)
  Variable ts : list (S * V * W).
  Variable impf : option (V -> W -> W -> option F).
  Variable d : data.
  Hypothesis R : ds_rep ts impf d.
  Hypothesis NE : ts <> [].

  Definition shaped (x : vec F * vec F) : Prop := length (fst x) = num_sources d /\ length (snd x) = num_claims d.

  Lemma ns_rep : num_sources d = length (sources ts). Proof. apply (rep_ns _ _ _ R). Qed.
  Lemma nc_rep : num_claims d = length (claims ts). Proof. apply (rep_nc _ _ _ R). Qed.
  Lemma ns_pos : num_sources d <> 0.
  Proof.
    rewrite ns_rep. intros H. apply length_zero_iff_nil in H. apply NE. now apply sources_nil.
  Qed.
  Lemma nc_pos : num_claims d <> 0.
  Proof.
    rewrite nc_rep. intros H. apply length_zero_iff_nil in H. apply NE. now apply claims_nil.
  Qed.
  Lemma sc_rows : m_rows (sc d) = num_sources d.
  Proof. destruct (rep_sc _ _ _ R) as (H & _). now rewrite H, ns_rep. Qed.
  Lemma sc_cols : m_cols (sc d) = num_claims d.
  Proof. destruct (rep_sc _ _ _ R) as (_ & H & _). now rewrite H, nc_rep. Qed.
  Lemma mut_rows : m_rows (mut_ex d) = num_claims d.
  Proof. destruct (rep_mut _ _ _ R) as (H & _). now rewrite H, nc_rep. Qed.
  Lemma imp_rows : m_rows (imp d) = num_claims d.
  Proof. destruct (rep_imp _ _ _ R) as (H & _). now rewrite H, nc_rep. Qed.
  Lemma imp_cols : m_cols (imp d) = num_claims d.
  Proof. destruct (rep_imp _ _ _ R) as (_ & H & _). now rewrite H, nc_rep. Qed.

  Lemma mv_length (A : mat F) x : length (mv A x) = m_rows A.
  Proof. unfold mv. now rewrite map_length, seq_length. Qed.
  Lemma vfull_length n (x : F) : length (vfull n x) = n.
  Proof. apply repeat_length. Qed.
  Lemma pymax_ne (v : vec F) : length v <> 0 -> exists m, pymax v = Some m.
  Proof. destruct v; cbn; [congruence|eauto]. Qed.
  Lemma npmax_ne (v : vec F) : length v <> 0 -> exists m, npmax v = Some m.
  Proof. destruct v; cbn; [congruence|eauto]. Qed.
  Lemma vdivs_length (v : vec F) x : length (vdivs v x) = length v.
  Proof. apply map_length. Qed.

  Lemma trust_dict_vec v : length v = num_sources d -> get_source_trust_dict d v = Some (tdict ts v).
  Proof.
    intros L. rewrite ns_rep in L.
    assert (E : v = map (fun s => nth (pos s (sources ts)) v (n_ofZ 0)) (sources ts)).
    { rewrite <- (map_nth_error_seq v (n_ofZ 0)) at 1. rewrite L. apply map_seq_nth. intros i s Hs.
      now rewrite (pos_nth_error _ _ _ (sources_NoDup ts) Hs). }
    rewrite E at 1. rewrite (trust_dict_rep ts impf d _ R). reflexivity.
  Qed.
  Lemma belief_dict_vec v : length v = num_claims d -> get_belief_dict d v = Some (bdict ts v).
  Proof.
    intros L. rewrite nc_rep in L.
    assert (E : v = map (fun c => nth (pos c (claims ts)) v (n_ofZ 0)) (claims ts)).
    { rewrite <- (map_nth_error_seq v (n_ofZ 0)) at 1. rewrite L. apply map_seq_nth. intros i s Hs.
      now rewrite (pos_nth_error _ _ _ (claims_NoDup ts) Hs). }
    rewrite E at 1. rewrite (belief_dict_rep ts impf d _ R). reflexivity.
  Qed.

  Lemma source_counts_length : length (source_counts d) = num_claims d.
  Proof. unfold source_counts. rewrite mv_length. cbn. apply sc_cols. Qed.
  Lemma claim_counts_length : length (claim_counts d) = num_sources d.
  Proof. unfold claim_counts. rewrite mv_length. apply sc_rows. Qed.
  Lemma prior_beliefs_length p v : prior_beliefs p d = Some v -> length v = num_claims d.
  Proof.
    destruct p; cbn; intros [= <-].
    - apply vfull_length.
    - unfold vdiv. rewrite zipw_length; [apply source_counts_length|]. rewrite mv_length, mut_rows. apply source_counts_length.
    - apply source_counts_length.
    - unfold sdivv. rewrite map_length, mv_length. apply mut_rows.
  Qed.
  Lemma init_shaped a p x0 : init a p d = Some x0 -> shaped x0.
  Proof.
    unfold shaped.
    destruct a; cbn [init]; try (destruct (prior_beliefs p d) eqn:E; [|discriminate]; apply prior_beliefs_length in E);
      intros H; injection H as <-; cbn [fst snd]; unfold vzeros, vones; rewrite ?vfull_length, ?vdivs_length; auto.
    split; [reflexivity|]. apply source_counts_length.
  Qed.

  Ltac lens := rewrite ?vdivs_length, ?map_length, ?mv_length, ?seq_length; cbn [mtr m_rows m_cols mmulc madd smul mm];
    rewrite ?sc_rows, ?sc_cols, ?mut_rows, ?imp_cols, ?imp_rows.
  Lemma update_trust_length t b nt : length t = num_sources d -> update_trust t (claim_counts d) (sc d) b = Some nt ->
    length nt = num_sources d.
  Proof.
    intros L. unfold update_trust. destruct (existsb _ _); [discriminate|]. intros [= <-]. unfold vmul, vdiv.
    assert (L1 : length (zipw n_div t (claim_counts d)) = num_sources d).
    { rewrite zipw_length; [exact L|]. now rewrite claim_counts_length. }
    rewrite zipw_length; [exact L1|]. rewrite L1, mv_length. cbn. now rewrite sc_rows.
  Qed.
  Ltac use_max v := let m := fresh "m" in let E := fresh "E" in
    destruct (pymax_ne v) as [m E]; [lens; auto using ns_pos, nc_pos|rewrite E].
  (** Every round of well-shaped scores is well-shaped and does not fail. *)
  Lemma round_shaped a x : shaped x ->
    match round a d x with UFail _ => False | UBreak => True | UNext _ _ x' => shaped x' end.
  Proof.
    destruct x as [t b]. unfold shaped. cbn [fst snd]. intros [Lt Lb].
    pose proof ns_pos. pose proof nc_pos. destruct a; cbn [round].
    - cbn [sums_upd]. use_max (mv (sc d) b). use_max (mv (mtr (sc d)) (mv (sc d) b)). cbn [fst snd]. lens. auto.
    - cbn [avlog_upd]. assert (Lw : length (vmul (avlog_weights d) (mv (sc d) b)) = num_sources d).
      { unfold vmul, avlog_weights, vdiv. assert (Q : length (zipw n_div (map n_ln (claim_counts d)) (claim_counts d)) = num_sources d).
        { rewrite zipw_length; rewrite map_length; apply claim_counts_length || reflexivity. }
        rewrite zipw_length; [exact Q|]. rewrite Q. lens. reflexivity. }
      destruct (pymax_ne (vmul (avlog_weights d) (mv (sc d) b))) as [m E]; [now rewrite Lw|]. rewrite E.
      use_max (mv (mtr (sc d)) (vmul (avlog_weights d) (mv (sc d) b))). cbn [fst snd]. lens. auto.
    - cbn [inv_upd]. destruct (update_trust t (claim_counts d) (sc d) b) as [nt|] eqn:U; [|exact I].
      apply update_trust_length in U; [|exact Lt].
      destruct (pymax_ne nt) as [m E]; [congruence|]. rewrite E.
      use_max (map (fun y => n_pow y g) (mv (mtr (sc d)) (vdiv nt (claim_counts d)))). cbn [fst snd]. lens. auto.
    - cbn [pooled_upd]. destruct (update_trust t (claim_counts d) (sc d) b) as [nt|] eqn:U; [|exact I].
      apply update_trust_length in U; [|exact Lt].
      destruct (pymax_ne nt) as [m E]; [congruence|]. rewrite E.
      set (base := mv (mtr (sc d)) (vdiv nt (claim_counts d))).
      assert (L0 : length base = num_claims d) by (unfold base; lens; reflexivity). clearbody base.
      set (nb := vmul base _). assert (L1 : length nb = num_claims d).
      { unfold nb, vmul, vdiv. rewrite zipw_length; [exact L0|]. rewrite zipw_length; lens; congruence. }
      destruct (pymax_ne nb) as [m' E']; [congruence|]. rewrite E'. cbn [fst snd]. lens. auto.
    - cbn [tf_upd]. destruct (get_log_trust t); [|exact I]. cbn [fst snd]. lens.
      unfold tf_a_mat, tf_b_mat. lens. auto.
    - cbn [crh_upd]. cbn [fst snd]. lens. auto.
    - cbn [usums_upd]. unfold rescale1.
      destruct (npmax_ne (mv (sc d) b)) as [m E]; [lens; auto|]. rewrite E.
      destruct (npmax_ne (mv (mtr (sc d)) (mv (sc d) b))) as [m' E']; [lens; auto|]. rewrite E'. cbn [fst snd].
      destruct (n_ltb _ m), (n_ltb _ m'); lens; auto.
  Qed.
  Lemma scores_shaped a x0 k : shaped x0 -> shaped (scores a d x0 k).
  Proof.
    intros H. induction k as [|k IH]; [exact H|]. cbn [scores]. pose proof (round_shaped a _ IH) as Q.
    destruct (round a d (scores a d x0 k)); tauto.
  Qed.

  (** the vectors compared in a round have one entry per source *)
  Lemma round_cmp_shaped a x : shaped x ->
    match round a d x with UFail _ => False | UBreak => True | UNext u v _ => length u = num_sources d /\ length v = num_sources d end.
  Proof.
    intros Sh. pose proof (round_shaped a x Sh) as Q. destruct x as [t b]. destruct Sh as [Lt Lb]. cbn [fst snd] in Lt, Lb.
    destruct a; cbn [round] in *.
    - cbn [sums_upd] in *. destruct (pymax (mv (sc d) b)); [|contradiction]. destruct (pymax (mv (mtr (sc d)) _)); [|contradiction].
      destruct Q as [Q _]. cbn in Q. auto.
    - cbn [avlog_upd] in *. destruct (pymax (vmul _ _)); [|contradiction]. destruct (pymax (mv _ _)); [|contradiction].
      destruct Q as [Q _]. cbn in Q. auto.
    - cbn [inv_upd] in *. destruct (update_trust _ _ _ _); [|exact I]. destruct (pymax v); [|contradiction]. destruct (pymax (map _ _)); [|contradiction].
      destruct Q as [Q _]. cbn in Q. auto.
    - cbn [pooled_upd] in *. destruct (update_trust _ _ _ _); [|exact I]. destruct (pymax v); [|contradiction]. destruct (pymax (vmul _ _)); [|contradiction].
      destruct Q as [Q _]. cbn in Q. auto.
    - cbn [tf_upd] in *. destruct (get_log_trust t); [|exact I]. destruct Q as [Q _]. cbn in Q. auto.
    - cbn [crh_upd] in *. destruct Q as [Q _]. cbn in Q. auto.
    - cbn [usums_upd] in *. destruct (rescale1 _); [|contradiction]. destruct (rescale1 _); [|contradiction]. split; [auto|].
      rewrite mv_length. apply sc_rows.
  Qed.

  Definition xk (a : alg F) x0 k := scores a d x0 k.
  Definition body (a : alg F) : vec F * vec F -> M S V W F ((vec F * vec F) * bool) :=
    match a with
    | Sums => sums_body clock d
    | AverageLog => avlog_body clock d
    | Investment g => inv_body clock g d
    | PooledInvestment g => pooled_body clock g d
    | TruthFinder rho gamma _ => tf_body clock rho gamma d
    | CRH eps => crh_body clock eps d
    | UnboundedSums => usums_body clock d
    end.
  Lemma body_std a x st : body a x st = std_body clock d (round a d) x st.
  Proof.
    destruct a; cbn [body round]; [apply sums_body_std|apply avlog_body_std|apply inv_body_std|apply pooled_body_std|
      apply tf_body_std|apply crh_body_std|apply usums_body_std]; [rewrite sc_rows; apply ns_pos|rewrite sc_cols; apply nc_pos].
  Qed.

  (** The while loop from the k-th scores. *)
  Lemma loop_char a x0 fuel k it lg out : shaped x0 -> it_count it = k ->
    while_ fuel (body a) (scores a d x0 k) (MState it lg out) =
    let '((r, k'), it') := it_loop (cmp1 a d x0) (cmp2 a d x0) (stops a d x0) fuel it k in
    (match r with Ok _ => Ok (scores a d x0 k') | Err e => Err e end,
     MState it' (option_map (fun l => logged clock (fun j => tdict ts (fst (scores a d x0 j)))
                                        (fun j => bdict ts (snd (scores a d x0 j))) l k k') lg) (out ++ it_trace (cmp1 a d x0) (cmp2 a d x0) (stops a d x0) fuel it k)).
  Proof.
    intros Hs Hk. rewrite (while_ext fuel (body a) (std_body clock d (round a d))) by (intros; apply body_std).
    apply while_it_loop; [| | |exact Hk].
    - intros j. unfold stops, cmp1, cmp2. cbn [scores]. pose proof (round_shaped a _ (scores_shaped a x0 j Hs)) as Q.
      destruct (round a d (scores a d x0 j)); [reflexivity|contradiction|reflexivity].
    - intros j. apply trust_dict_vec. now apply (scores_shaped a x0 j Hs).
    - intros j. apply belief_dict_vec. now apply (scores_shaped a x0 j Hs).
  Qed.

  (** the j-th partial result, reported as the n-th log entry *)
  Definition partial_result a x0 (n j : nat) : result S V W F :=
    Result (tdict ts (fst (scores a d x0 j))) (bdict ts (snd (scores a d x0 j)))
      (n_sub (clock n) (clock 0)) (Some j).
  Definition initial_log a x0 : list (result S V W F) := if logs_initial a then [partial_result a x0 1 0] else [].
  Definition partial_results a x0 k : list (result S V W F) :=
    initial_log a x0 ++ map (fun j => partial_result a x0 (length (initial_log a x0) + j) j) (seq 1 k).

  Lemma log_initial x0 (it : iterator F) (lg : option (list (result S V W F))) out : shaped x0 -> lg = None \/ lg = Some [] ->
    log clock d (fst x0) (snd x0) (MState it lg out) =
    (Ok tt, MState it (option_map (fun _ => [Result (tdict ts (fst x0)) (bdict ts (snd x0)) (n_sub (clock 1) (clock 0)) (Some (it_count it))]) lg) out).
  Proof.
    intros [H1 H2] Hl. unfold log. cbn [st_log st_it st_out]. destruct Hl as [->| ->]; [reflexivity|].
    rewrite trust_dict_vec, belief_dict_vec by assumption. reflexivity.
  Qed.

  Lemma alg_run_unfold a p fuel st :
    alg_run clock a fuel p d st =
    match init a p d with
    | None => (Err InvalidPriorError, st)
    | Some x0 =>
        mbind (if logs_initial a then log clock d (fst x0) (snd x0) else ret tt)
          (fun _ => mbind (while_ fuel (body a) x0)
             (fun x st' => (final a (st_it st') x, st'))) st
    end.
  Proof.
    assert (G : forall (m : M S V W F (vec F * vec F)) st,
       mbind m (fun x st' => (Ok x, st')) st = m st).
    { intros m s. unfold mbind. destruct (m s) as [[x|e] s']; reflexivity. }
    destruct a; cbn [alg_run init logs_initial body].
    - unfold sums_run. destruct p; cbn [prior_beliefs get_prior_beliefs]; try reflexivity; unfold mbind at 1, ret; cbn [fst snd final];
        unfold mbind at 1; unfold mbind at 1; destruct (log _ _ _ _ _) as [[[]|e] s']; try reflexivity; now rewrite G.
    - unfold avlog_run. destruct p; cbn [prior_beliefs get_prior_beliefs]; try reflexivity; unfold mbind at 1, ret; cbn [fst snd final];
        unfold mbind at 1; unfold mbind at 1; destruct (log _ _ _ _ _) as [[[]|e] s']; try reflexivity; now rewrite G.
    - unfold inv_run. destruct p; cbn [prior_beliefs get_prior_beliefs]; try reflexivity; unfold mbind at 1, ret; cbn [fst snd final];
        unfold mbind at 1; unfold mbind at 1; destruct (log _ _ _ _ _) as [[[]|e] s']; try reflexivity; now rewrite G.
    - unfold pooled_run. destruct p; cbn [prior_beliefs get_prior_beliefs]; try reflexivity; unfold mbind at 1, ret; cbn [fst snd final];
        unfold mbind at 1; unfold mbind at 1; destruct (log _ _ _ _ _) as [[[]|e] s']; try reflexivity; now rewrite G.
    - unfold tf_run. unfold mbind at 1. cbn [fst snd final].
      unfold mbind at 1; destruct (log _ _ _ _ _) as [[[]|e] s']; try reflexivity; now rewrite G.
    - unfold crh_run. cbn [fst snd final]. unfold mbind at 1. unfold ret. now rewrite G.
    - unfold usums_run. destruct p; cbn [prior_beliefs get_prior_beliefs]; try reflexivity; unfold mbind, ret, iterator_ranking; cbn [fst snd final];
        (match goal with |- context [log ?a ?b ?c ?e ?f] => destruct (log a b c e f) as [[[]|er] s'] end; [|reflexivity]);
        (match goal with |- context [while_ ?a ?b ?c ?e] => destruct (while_ a b c e) as [[[t b0]|er] s''] end; [|reflexivity]);
        cbn [fst snd];
        (destruct (st_it s'') eqn:Ei; try reflexivity); destruct (get_ranking_vector t); try reflexivity; rewrite Ei;
        destruct (get_ranking_vector b0); reflexivity.
  Qed.

  Theorem alg_run_char a p fuel it lg : it_count it = 0 -> lg = None \/ lg = Some [] ->
    alg_run clock a fuel p d (MState it lg []) =
    match init a p d with
    | None => (Err InvalidPriorError, MState it lg [])
    | Some x0 =>
        let '((r, k), it') := it_loop (cmp1 a d x0) (cmp2 a d x0) (stops a d x0) fuel it 0 in
        (match r with Ok _ => final a it' (scores a d x0 k) | Err e => Err e end,
         MState it' (option_map (fun _ => partial_results a x0 k) lg) (it_trace (cmp1 a d x0) (cmp2 a d x0) (stops a d x0) fuel it 0))
    end.
  Proof.
    intros Hit Hlg. rewrite alg_run_unfold. destruct (init a p d) as [x0|] eqn:E0; [|reflexivity].
    pose proof (init_shaped a p x0 E0) as Hs. set (l0 := initial_log a x0).
    assert (E1 : (if logs_initial a then log clock d (fst x0) (snd x0) else ret tt) (MState it lg []) =
                 (Ok tt, MState it (option_map (fun _ => l0) lg) [])).
    { unfold l0, initial_log, partial_result. destruct (logs_initial a).
      - rewrite log_initial by assumption. rewrite Hit. reflexivity.
      - unfold ret. destruct Hlg as [->| ->]; reflexivity. }
    unfold mbind at 1. rewrite E1. unfold mbind. change x0 with (scores a d x0 0) at 1.
    rewrite (loop_char a x0 fuel 0 it _ _ Hs Hit).
    destruct (it_loop (cmp1 a d x0) (cmp2 a d x0) (stops a d x0) fuel it 0) as [[r k] it'].
    assert (E2 : option_map (fun l => logged clock (fun j => tdict ts (fst (scores a d x0 j)))
                   (fun j => bdict ts (snd (scores a d x0 j))) l 0 k) (option_map (fun _ => l0) lg) =
                 option_map (fun _ => partial_results a x0 k) lg).
    { destruct lg as [l|]; [|reflexivity]. cbn. f_equal. unfold logged, partial_results. fold l0. f_equal.
      rewrite Nat.sub_0_r. apply map_ext_in. intros j _. unfold entry, partial_result. now rewrite Nat.sub_0_r. }
    destruct r as [u|e]; cbn [st_it]; rewrite E2; reflexivity.
  Qed.

  Lemma final_shaped a it x x' : shaped x -> final a it x = Ok x' -> shaped x'.
  Proof.
    assert (L : forall v w : vec F, get_ranking_vector v = Some w -> length w = length v).
    { intros v w. unfold get_ranking_vector. generalize (@rank_loop F None (vsort v) 0%Z []) as m. intros m.
      revert w. induction v as [|y v IH]; cbn; intros w; [intros [= <-]; reflexivity|].
      destruct (fget m y); [|discriminate]. destruct (rank_lookup m v); [|discriminate]. intros [= <-]. cbn. f_equal. now apply IH. }
    unfold shaped. destruct a; cbn; intros [H1 H2]; try (intros [= <-]; auto).
    destruct it; try discriminate. destruct (get_ranking_vector (fst x)) eqn:E1; [|discriminate].
    destruct (get_ranking_vector (snd x)) eqn:E2; [|discriminate]. intros [= <-]. cbn. rewrite (L _ _ E1), (L _ _ E2). auto.
  Qed.

  (** run *)
  Theorem run_char a p fuel it lg :
    run clock fuel (AObj a p it lg) d =
    match init a p d with
    | None => (Err InvalidPriorError, AObj a p (reset it) None)
    | Some x0 =>
        let '((r, k), it') := it_loop (cmp1 a d x0) (cmp2 a d x0) (stops a d x0) fuel (reset it) 0 in
        (match r with
         | Ok _ => match final a it' (scores a d x0 k) with
                   | Ok x => Ok (Result (tdict ts (fst x)) (bdict ts (snd x)) (n_sub (clock 1) (clock 0)) (Some k))
                   | Err e => Err e
                   end
         | Err e => Err e
         end, AObj a p it' None)
    end.
  Proof.
    unfold run. destruct (Nat.eqb_spec (num_claims d) 0) as [Z|_]; [now apply nc_pos in Z|].
    cbn [o_alg o_priors o_it]. rewrite alg_run_char; [|now destruct it|auto].
    destruct (init a p d) as [x0|] eqn:E0; [|reflexivity].
    pose proof (init_shaped a p x0 E0) as Hs.
    pose proof (it_loop_count (cmp1 a d x0) (cmp2 a d x0) (stops a d x0) fuel (reset it) 0) as C.
    destruct (it_loop (cmp1 a d x0) (cmp2 a d x0) (stops a d x0) fuel (reset it) 0) as [[r k] it']. cbn in C.
    destruct r as [u|e]; [|reflexivity]. cbn [st_it st_log option_map].
    destruct (final a it' (scores a d x0 k)) as [x|e] eqn:Ef; [|reflexivity]. destruct x as [t b].
    destruct (final_shaped a it' _ _ (scores_shaped a x0 k Hs) Ef) as [H1 H2]. cbn in H1, H2.
    rewrite trust_dict_vec, belief_dict_vec by assumption.
    rewrite C; [reflexivity|now destruct it|now destruct u].
  Qed.
  (** what a debugging iterator prints *)
  Theorem debug_char a p fuel it lg :
    debug_output clock fuel (AObj a p it lg) d =
    match init a p d with
    | None => []
    | Some x0 => it_trace (cmp1 a d x0) (cmp2 a d x0) (stops a d x0) fuel (reset it) 0
    end.
  Proof.
    unfold debug_output. destruct (Nat.eqb_spec (num_claims d) 0) as [Z|_]; [now apply nc_pos in Z|].
    cbn [o_alg o_priors o_it]. rewrite alg_run_char; [|now destruct it|auto].
    destruct (init a p d) as [x0|] eqn:E0; [|reflexivity].
    destruct (it_loop (cmp1 a d x0) (cmp2 a d x0) (stops a d x0) fuel (reset it) 0) as [[r k] it']. reflexivity.
  Qed.
  (** run_iter *)
  Theorem run_iter_char a p fuel it lg :
    run_iter clock fuel (AObj a p it lg) d =
    match init a p d with
    | None => (Err InvalidPriorError, AObj a p (reset it) (Some []))
    | Some x0 =>
        let '((r, k), it') := it_loop (cmp1 a d x0) (cmp2 a d x0) (stops a d x0) fuel (reset it) 0 in
        (match r with
         | Ok _ => match final a it' (scores a d x0 k) with
                   | Ok x => Ok (partial_results a x0 k)
                   | Err e => Err e
                   end
         | Err e => Err e
         end, AObj a p it' (Some (partial_results a x0 k)))
    end.
  Proof.
    unfold run_iter. destruct (Nat.eqb_spec (num_claims d) 0) as [Z|_]; [now apply nc_pos in Z|].
    cbn [o_alg o_priors o_it]. rewrite alg_run_char; [|now destruct it|auto].
    destruct (init a p d) as [x0|] eqn:E0; [|reflexivity].
    destruct (it_loop (cmp1 a d x0) (cmp2 a d x0) (stops a d x0) fuel (reset it) 0) as [[r k] it'].
    cbn [st_it st_log option_map]. destruct r as [u|e]; [|reflexivity].
    destruct (final a it' (scores a d x0 k)); reflexivity.
  Qed.
End Rounds.
