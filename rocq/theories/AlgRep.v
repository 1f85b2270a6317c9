(** The exact-arithmetic algorithms compute the label-level recurrences of SpecAlg. *)
From Coq Require Import Reals Lra.
From Verif Require Import Base Num Sparse Spec SpecAlg Dataset DatasetProofs DatasetRep Iterators Algorithms Driver Rounds.
Local Open Scope R_scope.

Lemma zipw_map2 {A B C D} (op : B -> C -> D) (f : A -> B) (g : A -> C) (l : list A) :
  zipw op (map f l) (map g l) = map (fun x => op (f x) (g x)) l.
Proof. induction l; cbn; [reflexivity|]. now rewrite IHl. Qed.
Lemma repeat_map {A B} (x : B) (l : list A) : repeat x (length l) = map (fun _ => x) l.
Proof. induction l; cbn; [reflexivity|]. now rewrite IHl. Qed.

Section AlgRep.
  Context {S V W : Type} {ES : Eqb S} {EV : Eqb V} {EW : Eqb W}.
  Notation data := (dataset S V W XR).
  Notation claim := (V * W)%type.
  Variable ts : list (S * V * W).
  Variable impf : option (V -> W -> W -> option xr).
  Variable d : data.
  Hypothesis R0 : ds_rep (F:=XR) ts impf d.
  Hypothesis NE : ts <> [].

  (** score vectors of label-level scores *)
  Definition tvec (f : S -> R) : vec XR := map (fun s => Fin (f s)) (sources ts).
  Definition bvec (g : claim -> R) : vec XR := map (fun c => Fin (g c)) (claims ts).
  Definition denote (x : rscores) : vec XR * vec XR := (tvec (fst x), bvec (snd x)).

  Lemma src_ne : sources ts <> []. Proof. intros E. apply NE. now apply sources_nil. Qed.
  Lemma cl_ne : claims ts <> []. Proof. intros E. apply NE. now apply claims_nil. Qed.

  Lemma claims_of_In s c : In c (claims_of ts s) <-> says ts s c = true.
  Proof.
    unfold claims_of. rewrite filter_In. split; [tauto|]. intros H. split; [|exact H]. apply claims_In. eauto.
  Qed.
  Lemma supporters_In s c : In s (supporters ts c) <-> says ts s c = true.
  Proof.
    unfold supporters. rewrite filter_In. split; [tauto|]. intros H. split; [|exact H]. eapply says_source; eauto.
  Qed.
  Lemma claims_of_ne s : In s (sources ts) -> exists c, In c (claims_of ts s).
  Proof. intros H. destruct (source_claims ts s H) as (c & Hc & Hs). exists c. now apply claims_of_In. Qed.
  Lemma supporters_ne c : In c (claims ts) -> exists s, In s (supporters ts c).
  Proof. intros H. apply claims_In in H. destruct H as (s & Hs). exists s. now apply supporters_In. Qed.
  Lemma rivals_In c c' : In c' (rivals ts c) <-> In c' (claims ts) /\ fst c = fst c'.
  Proof. unfold rivals. rewrite filter_In. split; intros [H1 H2]; (split; [exact H1|]); [now apply beq_eq in H2|now apply beq_true]. Qed.
  Lemma rivals_self c : In c (claims ts) -> In c (rivals ts c).
  Proof. intros H. now apply rivals_In. Qed.
  Lemma len_pos {A} (l : list A) x : In x l -> 0 < INR (length l).
  Proof. intros H. apply (lt_INR 0). destruct l; [destruct H|cbn; lia]. Qed.
  Lemma n_claims_pos s : In s (sources ts) -> 0 < n_claims ts s.
  Proof. intros H. destruct (claims_of_ne s H) as [c Hc]. exact (len_pos _ _ Hc). Qed.
  Lemma n_supporters_pos c : In c (claims ts) -> 0 < n_supporters ts c.
  Proof. intros H. destruct (supporters_ne c H) as [s Hs]. exact (len_pos _ _ Hs). Qed.
  Lemma n_claims_ge1 s : In s (sources ts) -> 1 <= n_claims ts s.
  Proof. intros H. destruct (claims_of_ne s H) as [c Hc]. unfold n_claims. apply (le_INR 1). destruct (claims_of ts s); [destruct Hc|cbn; lia]. Qed.

  (** matrix-vector products *)
  Lemma sc_mv g : mv (sc d) (bvec g) = tvec (total_belief ts g).
  Proof. unfold bvec. rewrite (mv_rep_one _ _ _ _ _ (rep_sc _ _ _ R0)). reflexivity. Qed.
  Lemma scT_mv f : mv (mtr (sc d)) (tvec f) = bvec (total_trust ts f).
  Proof. unfold tvec. rewrite (mv_rep_one _ _ _ _ _ (mrep_tr _ _ _ _ _ (rep_sc _ _ _ R0))). reflexivity. Qed.
  Lemma mut_mv g : mv (mut_ex d) (bvec g) = bvec (fun c => rsum g (rivals ts c)).
  Proof. unfold bvec. rewrite (mv_rep_one _ _ _ _ _ (rep_mut _ _ _ R0)). reflexivity. Qed.
  Lemma vones_c : @vones XR (num_claims d) = bvec (fun _ => 1).
  Proof. unfold vones, vfull, bvec. rewrite (rep_nc _ _ _ R0). apply (repeat_map (Fin 1)). Qed.
  Lemma vones_s : @vones XR (num_sources d) = tvec (fun _ => 1).
  Proof. unfold vones, vfull, tvec. rewrite (rep_ns _ _ _ R0). apply (repeat_map (Fin 1)). Qed.
  Lemma vzeros_s : @vzeros XR (num_sources d) = tvec (fun _ => 0).
  Proof. unfold vzeros, vfull, tvec. rewrite (rep_ns _ _ _ R0). apply (repeat_map (Fin 0)). Qed.
  Lemma vzeros_c : @vzeros XR (num_claims d) = bvec (fun _ => 0).
  Proof. unfold vzeros, vfull, bvec. rewrite (rep_nc _ _ _ R0). apply (repeat_map (Fin 0)). Qed.
  Lemma claim_counts_rep : claim_counts d = tvec (n_claims ts).
  Proof.
    unfold claim_counts. rewrite vones_c, sc_mv. apply map_ext. intros s. f_equal. unfold total_belief, n_claims. rewrite rsum_const. lra.
  Qed.
  Lemma source_counts_rep : source_counts d = bvec (n_supporters ts).
  Proof.
    unfold source_counts. rewrite vones_s, scT_mv. apply map_ext. intros s. f_equal. unfold total_trust, n_supporters. rewrite rsum_const. lra.
  Qed.

  (** vector arithmetic on finite vectors *)
  Lemma tvec_ext f g : (forall s, In s (sources ts) -> f s = g s) -> tvec f = tvec g.
  Proof. intros H. apply map_ext_in. intros s Hs. now rewrite H. Qed.
  Lemma bvec_ext f g : (forall c, In c (claims ts) -> f c = g c) -> bvec f = bvec g.
  Proof. intros H. apply map_ext_in. intros s Hs. now rewrite H. Qed.
  Lemma tvec_div f g : (forall s, In s (sources ts) -> g s <> 0) -> vdiv (tvec f) (tvec g) = tvec (fun s => f s / g s).
  Proof. intros H. unfold vdiv, tvec. rewrite zipw_map2. apply map_ext_in. intros s Hs. apply xdiv_fin. auto. Qed.
  Lemma bvec_div f g : (forall s, In s (claims ts) -> g s <> 0) -> vdiv (bvec f) (bvec g) = bvec (fun s => f s / g s).
  Proof. intros H. unfold vdiv, bvec. rewrite zipw_map2. apply map_ext_in. intros s Hs. apply xdiv_fin. auto. Qed.
  Lemma tvec_mul f g : vmul (tvec f) (tvec g) = tvec (fun s => f s * g s).
  Proof. unfold vmul, tvec. rewrite zipw_map2. reflexivity. Qed.
  Lemma bvec_mul f g : vmul (bvec f) (bvec g) = bvec (fun s => f s * g s).
  Proof. unfold vmul, bvec. rewrite zipw_map2. reflexivity. Qed.
  Lemma tvec_divs f x : x <> 0 -> vdivs (tvec f) (Fin x) = tvec (fun s => f s / x).
  Proof. intros H. unfold vdivs, tvec. rewrite map_map. apply map_ext. intros s. now apply xdiv_fin. Qed.
  Lemma bvec_divs f x : x <> 0 -> vdivs (bvec f) (Fin x) = bvec (fun s => f s / x).
  Proof. intros H. unfold vdivs, bvec. rewrite map_map. apply map_ext. intros s. now apply xdiv_fin. Qed.
  Lemma bvec_sdivv f : (forall c, In c (claims ts) -> f c <> 0) -> sdivv (Fin 1) (bvec f) = bvec (fun c => 1 / f c).
  Proof. intros H. unfold sdivv, bvec. rewrite map_map. apply map_ext_in. intros s Hs. apply xdiv_fin. auto. Qed.
  Lemma tvec_sdivv f : (forall c, In c (sources ts) -> f c <> 0) -> sdivv (Fin 1) (tvec f) = tvec (fun c => 1 / f c).
  Proof. intros H. unfold sdivv, tvec. rewrite map_map. apply map_ext_in. intros s Hs. apply xdiv_fin. auto. Qed.
  Lemma tvec_pymax f : pymax (tvec f) = Some (Fin (rmax f (sources ts))).
  Proof. apply pymax_fin, src_ne. Qed.
  Lemma bvec_pymax f : pymax (bvec f) = Some (Fin (rmax f (claims ts))).
  Proof. apply pymax_fin, cl_ne. Qed.
  Lemma tvec_npmax f : npmax (tvec f) = Some (Fin (rmax f (sources ts))).
  Proof. apply npmax_fin, src_ne. Qed.
  Lemma bvec_npmax f : npmax (bvec f) = Some (Fin (rmax f (claims ts))).
  Proof. apply npmax_fin, cl_ne. Qed.
  Lemma bvec_pow f g : (forall c, In c (claims ts) -> 0 < f c) -> map (fun y => @n_pow XR y (Fin g)) (bvec f) = bvec (fun c => Rpower (f c) g).
  Proof. intros H. unfold bvec. rewrite map_map. apply map_ext_in. intros s Hs. apply xpow_fin. auto. Qed.
  Lemma tvec_existsb0 f : (forall c, In c (claims ts) -> f c <> 0) -> existsb (fun x => @n_eqb XR x (n_ofZ 0)) (bvec f) = false.
  Proof.
    intros H. destruct (existsb _ _) eqn:E; [|reflexivity]. apply existsb_exists in E. destruct E as (x & Hx & Ex).
    unfold bvec in Hx. apply in_map_iff in Hx. destruct Hx as (c & <- & Hc). cbn in Ex.
    destruct (reqb_spec (f c) 0); [|discriminate]. now apply H in Hc.
  Qed.

  (** ** positivity *)
  Lemma total_belief_pos b s : (forall c, In c (claims ts) -> 0 < b c) -> In s (sources ts) -> 0 < total_belief ts b s.
  Proof.
    intros H Hs. destruct (claims_of_ne s Hs) as [c Hc].
    assert (P : forall c, In c (claims_of ts s) -> 0 < b c) by (intros c' Hc'; apply H; unfold claims_of in Hc'; apply filter_In in Hc'; tauto).
    apply (rsum_pos b _ c); [intros y Hy; left; auto|exact Hc|auto].
  Qed.
  Lemma total_trust_pos t c : (forall s, In s (sources ts) -> 0 < t s) -> In c (claims ts) -> 0 < total_trust ts t c.
  Proof.
    intros H Hc. destruct (supporters_ne c Hc) as [s Hs].
    assert (P : forall s, In s (supporters ts c) -> 0 < t s) by (intros c' Hc'; apply H; unfold supporters in Hc'; apply filter_In in Hc'; tauto).
    apply (rsum_pos t _ s); [intros y Hy; left; auto|exact Hs|auto].
  Qed.
  Lemma rmax_src_pos t : (forall s, In s (sources ts) -> 0 < t s) -> 0 < rmax t (sources ts).
  Proof. intros H. destruct (rmax_In t (sources ts) src_ne) as (s & Hs & ->). auto. Qed.
  Lemma rmax_cl_pos b : (forall s, In s (claims ts) -> 0 < b s) -> 0 < rmax b (claims ts).
  Proof. intros H. destruct (rmax_In b (claims ts) cl_ne) as (s & Hs & ->). auto. Qed.
  Lemma by_max_pos {A} (l : list A) f x : (forall y, In y l -> 0 < f y) -> In x l -> 0 < by_max l f x <= 1.
  Proof.
    intros H Hx. unfold by_max. pose proof (rmax_ge f l x Hx) as G. pose proof (H x Hx) as P. split.
    - apply Rdiv_lt_0_compat; lra.
    - apply (Rmult_le_reg_r (rmax f l)); [lra|]. unfold Rdiv. rewrite Rmult_assoc, Rinv_l; lra.
  Qed.
  Lemma by_max_nonneg {A} (l : list A) f x : (forall y, In y l -> 0 <= f y) -> 0 < rmax f l -> In x l -> 0 <= by_max l f x <= 1.
  Proof.
    intros H Hm Hx. unfold by_max. pose proof (rmax_ge f l x Hx) as G. pose proof (H x Hx) as P. split.
    - apply Rmult_le_pos; [lra|]. left. now apply Rinv_0_lt_compat.
    - apply (Rmult_le_reg_r (rmax f l)); [lra|]. unfold Rdiv. rewrite Rmult_assoc, Rinv_l; lra.
  Qed.
  Lemma by_max_attained {A} (l : list A) f : l <> [] -> 0 < rmax f l -> exists x, In x l /\ by_max l f x = 1.
  Proof.
    intros Hl Hm. destruct (rmax_In f l Hl) as (x & Hx & E). exists x. split; [exact Hx|]. unfold by_max. rewrite <- E. field. lra.
  Qed.

  (** ** from scores to results *)
  Definition all_pos (x : rscores) : Prop := (forall s, In s (sources ts) -> 0 < fst x s) /\ (forall c, In c (claims ts) -> 0 < snd x c).

  Lemma tdict_tvec (f : S -> R) : tdict ts (tvec f) = map (fun s => (s, Fin (f s))) (sources ts).
  Proof.
    unfold tdict, tvec. apply map_ext_in. intros s Hs. f_equal. apply nth_error_nth_eq. rewrite nth_error_map.
    now rewrite (nth_error_pos _ _ Hs).
  Qed.
  Lemma bdict_bvec (g : claim -> R) : bdict ts (bvec g) = beliefs_of (claims ts) (fun c => Fin (g c)).
  Proof.
    unfold bdict, beliefs_of. apply map_ext. intros x. f_equal. unfold scores_of. apply map_ext_in. intros c Hc. f_equal.
    apply filter_In in Hc. apply nth_error_nth_eq. unfold bvec. rewrite nth_error_map. now rewrite (nth_error_pos _ _ (proj1 Hc)).
  Qed.
End AlgRep.
