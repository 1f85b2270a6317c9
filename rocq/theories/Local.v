(** Two data sets, one of which extends the other by claims of further sources: sums over claims and supporters. *)
From Coq Require Import Reals Lra.
From Verif Require Import Base Num Spec SpecAlg Iterators Algorithms DatasetProofs AlgRep AlgRounds AlgTF.
Local Open Scope R_scope.

Lemma rsum_incl {A} {EA : Eqb A} (g h : A -> R) l l' : NoDup l -> NoDup l' -> incl l l' -> (forall x, In x l -> g x <= h x) -> (forall x, In x l' -> 0 <= h x) -> rsum g l <= rsum h l'.
Proof.
  intros ND ND' Hi Hgh Hh.
  assert (Q : rsum h l' = rsum h l + rsum h (filter (fun x => negb (mem x l)) l')).
  { rewrite <- rsum_app. apply rsum_Permutation. apply NoDup_Permutation; [exact ND'| |].
    - apply NoDup_app_intro; [exact ND|now apply NoDup_filter|]. intros x Hx H. apply filter_In in H. destruct H as [_ H]. apply mem_In in Hx. rewrite Hx in H. discriminate.
    - intros x. rewrite in_app_iff, filter_In. split.
      + intros Hx. destruct (mem x l) eqn:E; [left; now apply mem_In|right; auto].
      + intros [Hx|[Hx _]]; auto. }
  rewrite Q. pose proof (rsum_le g h l Hgh). pose proof (rsum_nonneg h (filter (fun x => negb (mem x l)) l') ltac:(intros x Hx; apply Hh; apply filter_In in Hx; tauto)). lra.
Qed.
Lemma rsum_same_set {A} (g h : A -> R) l l' : NoDup l -> NoDup l' -> (forall x, In x l <-> In x l') -> (forall x, In x l -> g x = h x) -> rsum g l = rsum h l'.
Proof. intros ND ND' E H. rewrite (rsum_ext g h l H). apply rsum_Permutation. now apply NoDup_Permutation. Qed.

Section Two.
  Context {S V W : Type} {ES : Eqb S} {EV : Eqb V} {EW : Eqb W}.
  Notation claim := (V * W)%type.
  Notation rscores := (@rscores S V W).
  Variables ts ts' : list (S * V * W).

  (** every source of [ts] makes the same claims in [ts'] (where there may be more sources) *)
  Definition same_claims : Prop := forall s, In s (sources ts) -> forall c, says ts' s c = says ts s c.
  (** no source outside [ts] says anything about a variable of [ts] *)
  Definition unrelated : Prop := forall s c, says ts' s c = true -> In (fst c) (variables ts) -> In s (sources ts).

  Hypothesis Same : same_claims.
  Lemma ext_sources s : In s (sources ts) -> In s (sources ts').
  Proof. intros Hs. destruct (source_claims ts s Hs) as (c & _ & Hc). rewrite <- (Same s Hs) in Hc. now apply says_source in Hc. Qed.
  Lemma ext_says s c : says ts s c = true -> says ts' s c = true.
  Proof. intros H. now rewrite (Same s (says_source ts s c H)). Qed.
  Lemma ext_claims c : In c (claims ts) -> In c (claims ts').
  Proof. rewrite !claims_In. intros [s H]. exists s. now apply ext_says. Qed.
  Lemma claims_of_NoDup (l : list (S * V * W)) s : NoDup (claims_of l s). Proof. apply NoDup_filter, claims_NoDup. Qed.
  Lemma supporters_NoDup (l : list (S * V * W)) c : NoDup (supporters l c). Proof. apply NoDup_filter, sources_NoDup. Qed.
  Lemma rivals_NoDup (l : list (S * V * W)) c : NoDup (rivals l c). Proof. apply NoDup_filter, claims_NoDup. Qed.
  Lemma ext_claims_of s : In s (sources ts) -> forall c, In c (claims_of ts s) <-> In c (claims_of ts' s).
  Proof. intros Hs c. rewrite !claims_of_In. now rewrite (Same s Hs). Qed.
  Lemma ext_supporters c s : In s (supporters ts c) -> In s (supporters ts' c).
  Proof. rewrite !supporters_In. apply ext_says. Qed.
  Lemma ext_total_belief g h s : In s (sources ts) -> (forall c, In c (claims ts) -> g c = h c) -> total_belief ts g s = total_belief ts' h s.
  Proof.
    intros Hs H. apply rsum_same_set; try apply claims_of_NoDup; [now apply ext_claims_of|]. intros c Hc. apply H. now apply (claims_of_claims ts s).
  Qed.
  Lemma ext_total_belief_le g h s : In s (sources ts) -> (forall c, In c (claims ts) -> g c <= h c) -> total_belief ts g s <= total_belief ts' h s.
  Proof.
    intros Hs H. rewrite <- (ext_total_belief h h s Hs) by reflexivity. apply rsum_le. intros c Hc. apply H. now apply (claims_of_claims ts s).
  Qed.
  Lemma ext_n_claims s : In s (sources ts) -> n_claims ts s = n_claims ts' s.
  Proof. intros Hs. unfold n_claims. f_equal. apply Permutation_length, NoDup_Permutation; try apply claims_of_NoDup. now apply ext_claims_of. Qed.
  Lemma ext_total_trust_le g h c : (forall s, In s (sources ts) -> g s <= h s) -> (forall s, In s (sources ts') -> 0 <= h s) -> total_trust ts g c <= total_trust ts' h c.
  Proof.
    intros H H0. apply rsum_incl; try apply supporters_NoDup; [intros s; apply ext_supporters| |].
    - intros s Hs. apply H. now apply (supporters_sources ts s c).
    - intros s Hs. apply H0. now apply (supporters_sources ts' s c).
  Qed.

  Hypothesis Unrel : unrelated.
  Lemma ext_supporters_iff c : In c (claims ts) -> forall s, In s (supporters ts c) <-> In s (supporters ts' c).
  Proof.
    intros Hc s. split; [apply ext_supporters|]. rewrite !supporters_In. intros H. rewrite <- (Same s); [exact H|]. apply (Unrel s c H). now apply claims_var.
  Qed.
  Lemma ext_claims_iff c : In (fst c) (variables ts) -> (In c (claims ts) <-> In c (claims ts')).
  Proof.
    intros Hv. split; [apply ext_claims|]. rewrite !claims_In. intros [s H]. exists s. rewrite <- (Same s); [exact H|]. now apply (Unrel s c).
  Qed.
  Lemma ext_rivals_iff c : In c (claims ts) -> forall c', In c' (rivals ts c) <-> In c' (rivals ts' c).
  Proof.
    intros Hc c'. rewrite !rivals_In. split; intros [H E]; (split; [|exact E]).
    - now apply ext_claims.
    - apply ext_claims_iff; [|exact H]. rewrite <- E. now apply claims_var.
  Qed.
  Lemma ext_total_trust g h c : In c (claims ts) -> (forall s, In s (sources ts) -> g s = h s) -> total_trust ts g c = total_trust ts' h c.
  Proof.
    intros Hc H. apply rsum_same_set; try apply supporters_NoDup; [now apply ext_supporters_iff|]. intros s Hs. apply H. now apply (supporters_sources ts s c).
  Qed.
  Lemma ext_n_supporters c : In c (claims ts) -> n_supporters ts c = n_supporters ts' c.
  Proof. intros Hc. unfold n_supporters. f_equal. apply Permutation_length, NoDup_Permutation; try apply supporters_NoDup. now apply ext_supporters_iff. Qed.
  Lemma ext_rivals g h c : In c (claims ts) -> (forall c, In c (claims ts) -> g c = h c) -> rsum g (rivals ts c) = rsum h (rivals ts' c).
  Proof.
    intros Hc H. apply rsum_same_set; try apply rivals_NoDup; [now apply ext_rivals_iff|]. intros c' Hc'. apply H. unfold rivals in Hc'. apply filter_In in Hc'. tauto.
  Qed.
  Lemma ext_n_rivals c : In c (claims ts) -> length (rivals ts c) = length (rivals ts' c).
  Proof. intros Hc. apply Permutation_length, NoDup_Permutation; try apply rivals_NoDup. now apply ext_rivals_iff. Qed.
End Two.

(** The data left when only the claims of some sources are kept. *)
Section Keep.
  Context {S V W : Type} {ES : Eqb S} {EV : Eqb V} {EW : Eqb W}.
  Definition keep_sources (p : S -> bool) (ts : list (S * V * W)) : list (S * V * W) := filter (fun t => p (t_src t)) ts.
  Lemma keep_first (p : S -> bool) ts s x : p s = true -> first_claim (keep_sources p ts) s x = first_claim ts s x.
  Proof.
    intros Hp. unfold first_claim, keep_sources. f_equal. induction ts as [|t ts IH]; [reflexivity|]. cbn [filter find].
    destruct (beq_spec (t_src t) s) as [<-|N].
    - rewrite Hp. cbn [find]. rewrite beq_refl. destruct (beq (t_var t) x); cbn [andb]; [reflexivity|exact IH].
    - cbn [andb]. destruct (p (t_src t)); [|exact IH]. cbn [find]. replace (beq (t_src t) s) with false by (symmetry; destruct (beq_spec (t_src t) s); congruence). exact IH.
  Qed.
  Lemma keep_source (p : S -> bool) ts s : In s (sources (keep_sources p ts)) -> p s = true.
  Proof. intros H. apply sources_In in H. destruct H as (x & v & H). apply filter_In in H. exact (proj2 H). Qed.
  Lemma keep_same (p : S -> bool) ts : same_claims (keep_sources p ts) ts.
  Proof. intros s Hs c. unfold says. now rewrite (keep_first p ts s (fst c) (keep_source p ts s Hs)). Qed.
End Keep.
