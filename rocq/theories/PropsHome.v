(** C79: what the home page offers is what the server accepts. *)
From Coq Require Import String.
From Verif Require Import Base Num Spec Dataset Iterators Algorithms Results PyStr Regex Client PropsClient Front.

(** the labels offered are exactly those for which the server finds an algorithm, each once, shown with the name of that algorithm's class *)
Definition display_names : list (pystr * pystr) :=
  [(lit_str "average_log", lit_str "AverageLog"); (lit_str "crh", lit_str "CRH"); (lit_str "investment", lit_str "Investment"); (lit_str "pooled_investment", lit_str "PooledInvestment");
   (lit_str "sums", lit_str "Sums"); (lit_str "truthfinder", lit_str "TruthFinder"); (lit_str "usums", lit_str "UnboundedSums"); (lit_str "voting", lit_str "MajorityVoting")]%string.
Theorem C79_labels l :
  NoDup (dkeys (fst home_page)) /\
  (In l (dkeys (fst home_page)) <-> exists c, algorithm_cls l = Ok c) /\
  (forall name, dget (fst home_page) l = Some name <-> In (l, name) display_names).
Proof.
  assert (K : dkeys (fst home_page) = map fst label_table) by (vm_compute; reflexivity).
  assert (ND : NoDup (dkeys (fst home_page))).
  { rewrite K. unfold label_table. cbn [map fst]. repeat constructor; cbn [In]; intros H; repeat (destruct H as [H|H]; [vm_compute in H; discriminate|]); exact H. }
  split; [exact ND|]. split.
  - rewrite K. split.
    + intros H. apply in_map_iff in H. destruct H as ([l' c] & <- & H). exists c. now apply C47_labels.
    + intros [c H]. apply C47_labels in H. apply in_map_iff. now exists (l, c).
  - intros name. split.
    + intros H. apply dget_In in H. assert (Q : fst home_page = map (fun p => (fst p, class_name (snd p))) label_table) by (vm_compute; reflexivity). rewrite Q in H. clear -H.
      unfold label_table, class_name in H. cbn [map fst snd In] in H. unfold display_names. cbn [In]. intuition auto 10.
    + intros H. unfold display_names in H. cbn [In] in H. repeat (destruct H as [H|H]; [injection H as <- <-; vm_compute; reflexivity|]). destruct H.
Qed.

Lemma first_dash (s n u v : pystr) : no_dash s -> no_dash n -> s ++ dash :: u = n ++ dash :: v -> s = n /\ u = v.
Proof.
  revert n. induction s as [|c s IH]; intros [|c' n] Hs Hn H; cbn [app] in H.
  - injection H as <-. auto.
  - injection H as <- _. exfalso. apply Hn. now left.
  - injection H as -> _. exfalso. apply Hs. now left.
  - injection H as <- H. apply IH in H; [destruct H as [-> ->]; auto| |]; intros Q; [apply Hs|apply Hn]; now right.
Qed.
(** the distance measures offered are exactly those with which a convergence iterator can be asked for *)
Theorem C79_measures {F : Num} (pfloat : pystr -> option F) (decimal : pychar -> option N) (DEC : decimal_ok decimal) s th x max_limit : th <> [] -> no_dash th -> pfloat th = Some x -> no_dash s ->
  (In s (snd home_page) <-> exists it, get_iterator pfloat decimal max_limit (s ++ lit_str "-convergence-"%string ++ th) = Ok it).
Proof.
  intros NE Hth Hx Hs. assert (M : In s (snd home_page) <-> exists m, measure_name m = Some s).
  { unfold home_page, measure_values. cbn [snd map fst In]. split.
    - intros H. repeat (destruct H as [<-|H]; [first [exists L1; reflexivity|exists L2; reflexivity|exists L_INF; reflexivity|exists COSINE; reflexivity]|]). destruct H.
    - intros [[] H]; cbn [measure_name] in H; try discriminate; injection H as <-; auto. }
  rewrite M. split.
  - intros [m Hm]. exists (IConv m x max_limit 0 None). apply C43_accepts_iff; [exact DEC|]. now apply SpecConv.
  - intros [it H]. apply C43_accepts_iff in H; [|exact DEC].
    assert (Nm : forall m name, measure_name m = Some name -> no_dash name).
    { intros [] name [= <-]; unfold no_dash; cbn [lit_str In]; intros Hin; repeat destruct Hin as [Hin|Hin]; try contradiction; vm_compute in Hin; discriminate. }
    remember (s ++ lit_str "-convergence-"%string ++ th) as str eqn:Es. change (lit_str "-convergence-") with (dash :: lit_str "convergence-") in Es. cbn [app] in Es.
    destruct H as [ds n tl [NEd (ds' & Hd & _)] _ _|m name th' x' Hm _ _ _|m name th' x' ds n tl Hm _ _ _ _ _ _].
    + exfalso. change (lit_str "fixed-") with (lit_str "fixed" ++ [dash]) in Es. rewrite <- app_assoc in Es. cbn [app] in Es. symmetry in Es. apply first_dash in Es; [|exact Hs|].
      * destruct Es as [_ Es]. destruct ds as [|c ds]; [congruence|]. cbn in Es. injection Es as <- _. destruct ds' as [|d' ds']; [discriminate|]. cbn in Hd. injection Hd as Hd _. rewrite DEC in Hd by reflexivity. discriminate.
      * unfold no_dash. cbn [lit_str In]. intros Hin; repeat destruct Hin as [Hin|Hin]; try contradiction; vm_compute in Hin; discriminate.
    + exists m. change (lit_str "-convergence-") with (dash :: lit_str "convergence-") in Es. cbn [app] in Es. apply first_dash in Es; [|now apply (Nm m)|exact Hs]. destruct Es as [<- _]. exact Hm.
    + exists m. change (lit_str "-convergence-") with (dash :: lit_str "convergence-") in Es. cbn [app] in Es. apply first_dash in Es; [|now apply (Nm m)|exact Hs]. destruct Es as [<- _]. exact Hm.
Qed.

Module HomeExamples.
  (** the hypotheses of C79_measures: "l2-convergence-0.1" is accepted, "l3-convergence-0.1" is not *)
  Definition ascii_decimal (c : pychar) : option N := if ((48 <=? c) && (c <=? 57))%N then Some (c - 48)%N else None.
  Definition pf (s : pystr) : option XR := if beq s (lit_str "0.1"%string) then Some (lit 1 10) else None.
  Example offered : In (lit_str "l2"%string) (snd home_page) /\ ~ In (lit_str "l3"%string) (snd home_page) /\ dget (fst home_page) (lit_str "crh"%string) = Some (lit_str "CRH"%string).
  Proof. split; [vm_compute; auto|]. split; [|reflexivity]. intros H. cbn [snd home_page map fst measure_values In] in H. repeat (destruct H as [H|H]; [vm_compute in H; discriminate|]). exact H. Qed.
  Example accepted : exists it, get_iterator (F:=XR) pf ascii_decimal 200 (lit_str "l2" ++ lit_str "-convergence-" ++ lit_str "0.1") = Ok it.
  Proof. apply (C79_measures pf ascii_decimal ltac:(intros c _; reflexivity) (lit_str "l2"%string) (lit_str "0.1"%string) (lit 1 10) 200); try discriminate; try reflexivity; try apply offered;
    unfold no_dash; cbn [lit_str In]; intros Hin; repeat destruct Hin as [Hin|Hin]; try contradiction; vm_compute in Hin; discriminate. Qed.
End HomeExamples.
