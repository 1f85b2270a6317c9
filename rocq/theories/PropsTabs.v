(** C107: tabs, panels and sections of the results, and the names of distance measures in the form. *)
From Coq Require Import NArith String Lia Sorted Permutation.
From Verif Require Import Base Num Spec Dataset DatasetRep Iterators Algorithms Results PyStr Regex Matrix PropsMatrix Supervised Client PropsClient PropsOutput PropsLayout Graph
  Driver Rounds PropsIter PropsRun PropsExperiment PropsOrd Front FrontRep PropsHome PropsCli PropsWeb PropsSafe WebForm PropsForm WebPage PropsPage WebTabs.

(** ** Names of distance measures *)
(** the measures offered, with the names shown for them; the names differ *)
Definition measure_display : list (pystr * pystr) :=
  [(lit_str "l1", lit_str "L1"); (lit_str "l2", lit_str "L2"); (lit_str "l_inf", lit_str "L inf"); (lit_str "cosine", lit_str "Cosine")]%string.
Theorem C107_measure_names :
  (forall s t, In (s, t) measure_display <-> In s (snd home_page) /\ format_measure s = Some t) /\ NoDup (map snd measure_display).
Proof.
  assert (K : snd home_page = map fst measure_display) by (vm_compute; reflexivity). assert (K2 : forall s t, In (s, t) measure_display -> format_measure s = Some t).
  { intros s t H. unfold measure_display in H. cbn [In] in H. repeat (destruct H as [H|H]; [injection H as <- <-; vm_compute; reflexivity|]). destruct H. }
  split.
  - intros s t. rewrite K. split.
    + intros H. split; [apply in_map_iff; now exists (s, t)|now apply K2].
    + intros [H E]. apply in_map_iff in H. destruct H as ([s' t'] & <- & H). cbn [fst] in E. pose proof (K2 _ _ H) as E2. assert (t' = t) by congruence. now subst t'.
  - unfold measure_display. cbn [map snd]. repeat constructor; cbn [In]; intros H; repeat (destruct H as [H|H]; [vm_compute in H; discriminate|]); exact H.
Qed.

(** The name of a measure that begins with one of the 26 small letters is shown with the capital letter; another beginning (not "_") stays,
    a "_" at the beginning becomes a space; the rest loses its first "_", if there was none before it. *)
Theorem C107_capital :
  (forall n c t, nth_error (lit_str "abcdefghijklmnopqrstuvwxyz") n = Some c -> exists c' t', nth_error (lit_str "ABCDEFGHIJKLMNOPQRSTUVWXYZ") n = Some c' /\ format_measure (c :: t) = Some (c' :: t') /\
     ((~ In 95%N t /\ t' = t) \/ exists u v, t = u ++ 95%N :: v /\ ~ In 95%N u /\ t' = u ++ 32%N :: v)) /\
  (forall c t, ~ In c (lit_str "abcdefghijklmnopqrstuvwxyz") -> c <> 95%N -> exists t', format_measure (c :: t) = Some (c :: t') /\
     ((~ In 95%N t /\ t' = t) \/ exists u v, t = u ++ 95%N :: v /\ ~ In 95%N u /\ t' = u ++ 32%N :: v)) /\
  (forall t, format_measure (95%N :: t) = Some (32%N :: t)).
Proof.
  assert (R : forall t, (~ In 95%N t /\ replace_first 95%N 32%N t = t) \/ exists u v, t = u ++ 95%N :: v /\ ~ In 95%N u /\ replace_first 95%N 32%N t = u ++ 32%N :: v).
  { induction t as [|x t IH]; [left; split; [intros []|reflexivity]|]. cbn [replace_first]. destruct (N.eqb_spec x 95) as [->|Nx].
    - right. exists [], t. split; [reflexivity|]. split; [intros []|reflexivity].
    - destruct IH as [[H1 H2]|(u & v & -> & H1 & H2)].
      + left. split; [intros [->|H]; [now apply Nx|now apply H1]|now rewrite H2].
      + right. exists (x :: u), v. split; [reflexivity|]. split; [intros [->|H]; [now apply Nx|now apply H1]|now rewrite H2]. }
  assert (G : forall c t, c <> 95%N -> format_measure (c :: t) = Some (upper_char c :: replace_first 95%N 32%N t)).
  { intros c t Hc. unfold format_measure. cbn [replace_first]. destruct (N.eqb_spec c 95) as [Q|_]; [contradiction|reflexivity]. }
  split; [|split].
  - intros n c t Hn. assert (Q : c <> 95%N /\ nth_error (lit_str "ABCDEFGHIJKLMNOPQRSTUVWXYZ") n = Some (upper_char c)).
    { do 26 (destruct n as [|n]; [injection Hn as <-; split; [discriminate|reflexivity]|]). destruct n; discriminate. }
    exists (upper_char c), (replace_first 95%N 32%N t). split; [apply Q|]. split; [apply G, Q|apply R].
  - intros c t Hc N95. exists (replace_first 95%N 32%N t). split; [|apply R]. etransitivity; [exact (G c t N95)|]. apply (f_equal (fun x => Some (x :: replace_first 95%N 32%N t))). unfold upper_char.
    destruct (N.leb_spec 97 c) as [A|A]; [|reflexivity]. destruct (N.leb_spec c 122) as [B|B]; [|reflexivity]. exfalso. apply Hc.
    assert (K : exists k, k < 26 /\ c = (97 + N.of_nat k)%N) by (exists (N.to_nat (c - 97)); split; lia). destruct K as (k & Hk & ->).
    do 26 (destruct k as [|k]; [vm_compute; tauto|]). lia.
  - reflexivity.
Qed.

(** whether two sections are the same *)
Definition same_section (a b : section) : {a = b} + {a <> b}. Proof. decide equality. Defined.

(** ** Tabs *)
(** the labels there are, in the order of the names displayed for them *)
Definition by_name : list pystr := map lit_str ["average_log"; "crh"; "investment"; "voting"; "pooled_investment"; "sums"; "truthfinder"; "usums"]%string.
Lemma unique_sorted {A} (R : A -> A -> Prop) l : forall l', Permutation l l' -> (forall a b, In a l -> In b l -> R a b -> R b a -> a = b) -> StronglySorted R l -> StronglySorted R l' -> l = l'.
Proof.
  induction l as [|x l IH]; intros l' P An S1 S2; [symmetry; now apply Permutation_nil|].
  destruct l' as [|y l']; [exfalso; apply (Permutation_nil_cons (l := l) (x := x)); symmetry; exact P|]. inversion S1 as [|? ? S1' F1]; inversion S2 as [|? ? S2' F2]; subst. rewrite Forall_forall in F1, F2.
  assert (x = y).
  { assert (Hy : In y (x :: l)) by (apply (Permutation_in y (Permutation_sym P)); now left). assert (Hx : In x (y :: l')) by (apply (Permutation_in x P); now left).
    destruct Hy as [->|Hy]; [reflexivity|]. destruct Hx as [->|Hx]; [reflexivity|]. apply An; [now left|now right|auto|auto]. }
  subst y. f_equal. apply IH; [now apply Permutation_cons_inv in P| |exact S1'|exact S2']. intros a b Ha Hb. apply An; now right.
Qed.
Definition key_le (l l' : pystr) : Prop := str_ltb (pair_key l') (pair_key l) = false.
Lemma key_weak : strict_weak (fun l l' => str_ltb (pair_key l) (pair_key l')).
Proof. destruct (strict_total_weak _ str_ltb_total) as [As Nt]. split; [intros x y; apply As|intros x y z; apply Nt]. Qed.
Lemma by_name_sorted : StronglySorted key_le by_name.
Proof. unfold by_name. cbn [map]. repeat constructor; vm_compute; reflexivity. Qed.
Lemma by_name_keys a b : In a by_name -> In b by_name -> pair_key a = pair_key b -> a = b.
Proof.
  assert (N : NoDup (map pair_key by_name)).
  { unfold by_name. cbn [map]. repeat constructor; cbn [In]; intros H; repeat (destruct H as [H|H]; [vm_compute in H; discriminate|]); exact H. }
  revert N. generalize by_name. intros l. induction l as [|x l IH]; intros N Ha Hb E; [destruct Ha|]. cbn [map] in N. inversion N as [|? ? Nx N']; subst. destruct Ha as [<-|Ha], Hb as [<-|Hb]; auto.
  - exfalso. apply Nx. rewrite E. now apply in_map.
  - exfalso. apply Nx. rewrite <- E. now apply in_map.
Qed.
Lemma by_name_nodup : NoDup by_name.
Proof. unfold by_name. cbn [map]. repeat constructor; cbn [In]; intros H; repeat (destruct H as [H|H]; [vm_compute in H; discriminate|]); exact H. Qed.
Lemma by_name_labels l : In l by_name <-> In l (dkeys algorithm_labels).
Proof.
  assert (K : dkeys algorithm_labels = map fst label_table) by (vm_compute; reflexivity). rewrite K. unfold by_name, label_table. cbn [map fst In]. tauto.
Qed.
Lemma filter_sorted {A} (R : A -> A -> Prop) f l : StronglySorted R l -> StronglySorted R (filter f l).
Proof.
  induction 1 as [|x l Hs IH Hx]; cbn [filter]; [constructor|]. destruct (f x); [|exact IH]. constructor; [exact IH|]. rewrite Forall_forall in Hx |- *. intros y Hy. apply filter_In in Hy. now apply Hx.
Qed.
(** the tabs of labels that exist are in the order of their names, whatever order they come in *)
Lemma available_in_order ls : NoDup ls -> (forall l, In l ls -> In l by_name) -> available_labels ls = filter (fun l => mem l ls) by_name.
Proof.
  intros ND Sub. assert (P : Permutation (available_labels ls) ls) by apply sort_perm. apply (unique_sorted key_le).
  - apply NoDup_Permutation.
    + apply (Permutation_NoDup (Permutation_sym P) ND).
    + apply NoDup_filter, by_name_nodup.
    + intros x. rewrite filter_In. split.
      * intros H. apply (Permutation_in x P) in H. split; [now apply Sub|]. now apply mem_In.
      * intros [_ H]. apply mem_In in H. now apply (Permutation_in x (Permutation_sym P)).
  - intros a b Ha Hb R1 R2. apply by_name_keys; try (apply Sub; now apply (Permutation_in _ P)). unfold key_le in R1, R2. destruct str_ltb_total as (_ & _ & To).
    destruct (To (pair_key a) (pair_key b)) as [H|[H|H]]; congruence.
  - apply sort_sorted_weak, key_weak.
  - apply filter_sorted, by_name_sorted.
Qed.
Lemma labels_nodup : NoDup (dkeys algorithm_labels). Proof. exact (proj1 (C79_labels [])). Qed.

Section Visit.
  Context {C W : Type} {EW : Eqb W} {F : Num} {FOK : NumOK F}.
  Variable parse : pystr -> option (option C).
  Variable label : C -> W.
  Variable pfloat : pystr -> option F.
  Variable decimal : pychar -> option N.
  Hypothesis DEC : decimal_ok decimal.
  Variable ord : list pystr -> list pystr.
  Hypothesis Ord : forall l, Permutation.Permutation l (ord l).
  Variable ltw : W -> W -> bool.
  Variable rnd : nat -> nat.
  Hypothesis irrefl : forall x : F, n_ltb x x = false.
  Variable T : trig F.
  Variable show_nat : nat -> pystr.
  Variable show_w : W -> pystr.
  Variable loads : pystr -> option (jval (F:=F)).
  Variable oset : list pystr -> list pystr.
  Hypothesis Oset : forall l, Permutation.Permutation (oset l) l.
  Hypothesis show_nat_inj : forall a b, show_nat a = show_nat b -> a = b.
  Hypothesis show_w_inj : forall a b, show_w a = show_w b -> a = b.
  Variable toFixed10 : F -> pystr.
  Variable json_w : W -> jval (F:=F).
  Variable stringify : jval (F:=F) -> pystr.
  Variable first_key : list pystr -> option pystr.
  Hypothesis First : forall l, match first_key l with Some k => In k l | None => l = [] end.
  Variable for_in : list pystr -> list pystr.
  Hypothesis For_in : forall l, Permutation.Permutation (for_in l) l.
  Variables (clocks : nat -> nat -> nat -> F) (fuel : nat).
  Notation web_run := (web_run parse label pfloat decimal ord ltw rnd T show_nat show_w loads oset).
  Notation entry := (web_entry (W:=W) (F:=F)).
  Notation press_run k := (press_run toFixed10 show_nat show_w json_w stringify first_key (web_run (clocks k) fuel)).
  Notation press := (press F).
  Notation outcome := (outcome W F).
  Notation page := (page W F).
  Notation page_action := (page_action F).
  Notation tabs := (tabs for_in).
  Notation possible := (possible for_in).
  Notation event := (page_action * option outcome)%type.

  (** [browse h pg]: since the page was opened a visitor has done what is recorded in h, and the page is now pg *)
  Inductive browse : list event -> page -> Prop :=
  | opened : browse [] new_page
  | done h pg x pg' o : browse h pg -> possible pg x -> act (press_run (List.length h)) pg x = (pg', o) -> browse (h ++ [(x, o)]) pg'.

  (** the answer on display: the last request was answered with results *)
  Definition answer_now (h : list event) (p : press) (data : dict pystr entry) : Prop :=
    exists h1 q ms h2, h = h1 ++ (PressRun p, Some (Asked q (R200 data ms))) :: h2 /\ forall p' q' r', ~ In (PressRun p', Some (Asked q' r')) h2.
  Lemma answer_now_snoc h x p data : answer_now (h ++ [x]) p data <->
    (exists q ms, x = (PressRun p, Some (Asked q (R200 data ms)))) \/ (answer_now h p data /\ forall p' q' r', x <> (PressRun p', Some (Asked q' r'))).
  Proof.
    split.
    - intros (h1 & q & ms & h2 & E & N). destruct h2 as [|y h2 _] using rev_ind.
      + apply app_inj_tail in E. destruct E as [_ ->]. left. eauto.
      + rewrite app_comm_cons, app_assoc in E. apply app_inj_tail in E. destruct E as [-> <-]. right. split.
        * exists h1, q, ms, h2. split; [reflexivity|]. intros p' q' r' H. apply (N p' q' r'). apply in_or_app. now left.
        * intros p' q' r' ->. apply (N p' q' r'). apply in_or_app. right. now left.
    - intros [(q & ms & ->)|[(h1 & q & ms & h2 & -> & N) Ho]]; [exists h, q, ms, []; split; [reflexivity|intros ? ? ? []]|].
      exists h1, q, ms, (h2 ++ [x]). split; [now rewrite <- app_assoc|]. intros p' q' r' H. apply in_app_or in H. destruct H as [H|[H|[]]]; [exact (N _ _ _ H)|exact (Ho _ _ _ H)].
  Qed.

  (** an entry of an answer: voting has no rounds and no animation, all others have both *)
  Definition as_expected (l : pystr) (e : entry) : Prop :=
    (we_animation e = None <-> l = lit_str "voting") /\
    (if beq l (lit_str "voting") then dget (we_fields e) FIterations = Some (VIterations None) else exists k, dget (we_fields e) FIterations = Some (VIterations (Some k))).
  Lemma voting_label l c : In (l, c) label_table -> (l = lit_str "voting" <-> c = CMajorityVoting).
  Proof.
    intros H. split.
    - intros ->. apply (proj2 (proj1 (C47_labels _ _))) in H. vm_compute in H. injection H as <-. reflexivity.
    - intros ->. apply (proj2 (proj2 (C47_labels _ _))) in H. vm_compute in H. injection H as <-. reflexivity.
  Qed.
  Lemma voting_iterations clock (d : dataset nat nat W F) r : voting_run clock d = Ok r -> r_iterations r = None.
  Proof. unfold voting_run. destruct (Nat.eqb _ 0); [discriminate|]. destruct (npmax _); [|discriminate]. cbn zeta. destruct (get_source_trust_dict _ _); [|discriminate]. destruct (get_belief_dict _ _); [|discriminate]. intros H. injection H as <-. reflexivity. Qed.
  Lemma expected cl ts (d : dataset nat nat W F) ps prev i l e : build false None ts = Ok d -> entry_for ltw rnd T show_nat show_w loads cl fuel d ps prev i l e -> as_expected l e.
  Proof.
    intros Hb H. destruct (entry_fields ltw rnd T show_nat show_w loads fuel cl d ps prev i l e H) as (r' & _ & _ & _ & It & _). destruct H as (c & r & Hc & (o & Ro & Er) & Hf & _ & An & _).
    pose proof (voting_label l c Hc) as V. assert (Er' : r_iterations r' = r_iterations r).
    { specialize (Hf FIterations). rewrite It in Hf. cbn [field_value] in Hf. congruence. }
    rewrite Er' in It. clear Er' Hf r'. split.
    - rewrite V. destruct (we_animation e) as [[fps frames]|]; [|split; auto]. destruct An as (_ & rs & (o' & Ro' & _) & _). split; [discriminate|]. intros ->. cbn [requested] in Ro'. discriminate.
    - destruct (beq_spec l (lit_str "voting")) as [El|Nl].
      + apply V in El. subst c. cbn [requested] in Ro. injection Ro as <-. cbn [crun fst] in Er. symmetry in Er. apply voting_iterations in Er. now rewrite Er in It.
      + assert (Nc : c <> CMajorityVoting) by (intros Q; apply Nl, V, Q).
        assert (Q : exists a p it lg, o = OIterative (AObj a p it lg)) by (destruct c; cbn [requested] in Ro; try congruence; injection Ro as <-; repeat eexists).
        destruct Q as (a & p & it & lg & ->). cbn [crun] in Er. destruct (run (cl (2 * i)) fuel (AObj a p it lg) d) as [r1 o1] eqn:R1. cbn [fst] in Er. subst r1.
        apply (run_cases false None ts d Hb) in R1. destruct R1 as (_ & x0 & j & it' & _ & _ & x & _ & ->). exists j. exact It.
  Qed.
  (** what an answer to a press has *)
  Definition good_answer (p : press) (data : dict pystr entry) : Prop :=
    NoDup (dkeys data) /\ (forall l, In l (dkeys data) <-> In l (labels_of (pr_algorithm p))) /\ dkeys data <> [] /\ (forall l, In l (dkeys data) -> In l by_name) /\
    (forall l e, dget data l = Some e -> as_expected l e).
  Lemma answer_good k sv p q data ms sv' : press_run k sv p = (Asked q (R200 data ms), sv') -> good_answer p data.
  Proof.
    intros E. unfold WebPage.press_run in E. destruct (make_request toFixed10 stringify (sv_previous sv) p) as [q1|] eqn:Em; [|discriminate]. injection E as -> A _.
    destruct (answered_spec parse label pfloat decimal DEC ord Ord ltw rnd irrefl T show_nat show_w loads oset Oset show_nat_inj show_w_inj fuel _ _ _ _ A) as (lines & items & m & d & _ & _ & Ed & (_ & Nd & Kd & En & cs & Fc & _)).
    assert (Eq : q_algorithm q = labels_of (pr_algorithm p)) by (unfold make_request in Em; destruct (if not_voting _ then _ else _); [|discriminate]; injection Em as <-; reflexivity). rewrite Eq in Kd.
    change (build false None (get_triples label m) = Ok d) in Ed. split; [exact Nd|]. split; [exact Kd|]. split.
    - intros Q0. assert (Nl : q_algorithm q <> []) by (intros Q1; clear -A Q1; unfold Front.web_run in A; rewrite Q1 in A; discriminate). rewrite Eq in Nl. destruct (labels_of (pr_algorithm p)) as [|l0 ls]; [congruence|].
      assert (In l0 (dkeys data)) by (apply Kd; now left). rewrite Q0 in *. contradiction.
    - split.
      + intros l Hl. apply Kd in Hl. rewrite <- Eq in Hl. destruct (Forall2_In_l _ _ _ _ Fc Hl) as (c & _ & Hc). apply by_name_labels. apply (proj1 (proj2 (C79_labels l))). exists c. now apply C47_labels.
      + intros l e De. destruct (En l e De) as (i & _ & _ & Hi). exact (expected _ _ _ _ _ _ _ _ Ed Hi).
  Qed.

  (** the state of the page, by its history *)
  Definition shows_one (pg : page) (data : dict pystr entry) : Prop := sv_results (pg_service pg) = Some data /\ exists l, sv_shown (pg_service pg) = Some l /\ In l (dkeys data).
  Lemma browse_inv h pg : browse h pg ->
    (forall data, sv_results (pg_service pg) = Some data -> shows_one pg data /\ exists p, good_answer p data) /\
    (forall p data, answer_now h p data -> sv_state (pg_service pg) = PHasResults /\ sv_results (pg_service pg) = Some data /\ good_answer p data) /\
    (sv_state (pg_service pg) = PHasResults -> exists p data, answer_now h p data).
  Proof.
    induction 1 as [|h pg x pg' o B (I1 & I2 & I3) Po E].
    - split; [discriminate|]. split; [|discriminate]. intros p data (h1 & q & ms & h2 & E & _). destruct h1; discriminate.
    - destruct x as [p|l|l s]; cbn [act] in E.
      + destruct (press_run (List.length h) (pg_service pg) p) as [o1 sv1] eqn:Pr. injection E as <- <-. cbn [pg_service]. pose proof Pr as Pr0. unfold WebPage.press_run in Pr.
        destruct (make_request toFixed10 stringify (sv_previous (pg_service pg)) p) as [q|] eqn:Em.
        2:{ injection Pr as <- <-. split; [exact I1|]. split.
            - intros p1 data H. apply answer_now_snoc in H. destruct H as [(q & ms & [=])|[H _]]. now apply I2.
            - intros H. destruct (I3 H) as (p1 & data & H1). exists p1, data. apply answer_now_snoc. right. split; [exact H1|discriminate]. }
        destruct (Front.web_run parse label pfloat decimal ord ltw rnd T show_nat show_w loads oset (clocks (List.length h)) fuel q) as [data ms|e| |e|] eqn:Er; injection Pr as <- <-; cbn [handle_response sv_results sv_state sv_shown].
        * pose proof (answer_good _ _ _ _ _ _ _ Pr0) as G. split; [|split].
          -- intros data' H. injection H as <-. split; [|exists p; exact G]. split; [reflexivity|]. cbn [handle_response sv_shown pg_service].
             assert (Fk : exists l, first_key (dkeys data) = Some l /\ In l (dkeys data)).
             { pose proof (First (dkeys data)) as Q. destruct (first_key (dkeys data)) as [l|]; [exists l; auto|]. destruct G as (_ & _ & Ne & _). contradiction. }
             destruct (sv_shown (pg_service pg)) as [l|]; [|exact Fk]. destruct (dmem data l) eqn:Dm; [|exact Fk]. exists l. split; [reflexivity|]. unfold dmem in Dm. now apply mem_In in Dm.
          -- intros p1 data1 H. apply answer_now_snoc in H. destruct H as [(q1 & ms1 & H)|[_ H]]; [|destruct (H _ _ _ eq_refl)]. injection H as <- <- <- <-. auto.
          -- intros _. exists p, data. apply answer_now_snoc. left. eauto.
        * split; [exact I1|]. split; [|discriminate]. intros p1 data H. apply answer_now_snoc in H. destruct H as [(q1 & ms1 & [=])|[_ H]]. destruct (H _ _ _ eq_refl).
        * split; [exact I1|]. split; [|discriminate]. intros p1 data H. apply answer_now_snoc in H. destruct H as [(q1 & ms1 & [=])|[_ H]]. destruct (H _ _ _ eq_refl).
        * split; [exact I1|]. split; [|discriminate]. intros p1 data H. apply answer_now_snoc in H. destruct H as [(q1 & ms1 & [=])|[_ H]]. destruct (H _ _ _ eq_refl).
        * split; [exact I1|]. split; [|discriminate]. intros p1 data H. apply answer_now_snoc in H. destruct H as [(q1 & ms1 & [=])|[_ H]]. destruct (H _ _ _ eq_refl).
      + injection E as <- <-. cbn [pg_service sv_results sv_state sv_shown]. split; [|split].
        * intros data H. destruct (I1 data H) as (_ & p & G). split; [|exists p; exact G]. split; [exact H|]. exists l. split; [reflexivity|].
          cbn [WebTabs.possible] in Po. unfold WebTabs.tabs in Po. destruct (displayed pg); [|destruct Po]. rewrite H, map_map in Po. apply in_map_iff in Po. destruct Po as (l1 & <- & Hl). cbn [fst].
          apply (Permutation_in l1 (sort_perm _ _)) in Hl. exact (Permutation_in l1 (For_in _) Hl).
        * intros p1 data H. apply answer_now_snoc in H. destruct H as [(q1 & ms1 & [=])|[H _]]. now apply I2.
        * intros H. destruct (I3 H) as (p1 & data & H1). exists p1, data. apply answer_now_snoc. right. split; [exact H1|discriminate].
      + injection E as <- <-. cbn [pg_service]. split; [exact I1|]. split.
        * intros p1 data H. apply answer_now_snoc in H. destruct H as [(q1 & ms1 & [=])|[H _]]. now apply I2.
        * intros H. destruct (I3 H) as (p1 & data & H1). exists p1, data. apply answer_now_snoc. right. split; [exact H1|discriminate].
  Qed.
  Lemma panels_shown (pg : page) (data : dict pystr entry) l : displayed pg = true -> sv_shown (pg_service pg) = Some l -> In l (dkeys data) -> (forall l, In l (dkeys data) -> In l by_name) -> panels pg = [l].
  Proof.
    intros Di Sh Hl Sub. unfold panels. rewrite Di. unfold is_shown. rewrite Sh. assert (K : In l (dkeys algorithm_labels)) by (apply by_name_labels; auto). pose proof labels_nodup as ND.
    assert (Fl : forall ls : list pystr, NoDup ls -> In l ls -> filter (beq l) ls = [l]).
    { induction ls as [|x ls IH]; intros N1 H1; [destruct H1|]. inversion N1 as [|? ? Nx N2]; subst. cbn [filter]. destruct (beq_spec l x) as [->|Nl].
      - f_equal. clear -Nx. induction ls as [|y ls IH]; [reflexivity|]. cbn [filter]. destruct (beq_spec x y) as [->|_]; [exfalso; apply Nx; now left|]. apply IH. intros H. apply Nx. now right.
      - apply IH; [exact N2|]. destruct H1 as [->|H1]; [congruence|exact H1]. }
    now apply Fl.
  Qed.

  (** ** C107 *)
  (** While the last request has not been answered with results, no tabs or panels are displayed.  Otherwise exactly one panel is, that of
      one of the algorithms of that request; and there is one tab for each of those algorithms, in the order of the algorithms' names,
      with the name; only the tab of the panel displayed is marked. *)
  Theorem C107_display h pg : browse h pg ->
    ((forall p data, ~ answer_now h p data) -> panels pg = [] /\ tabs pg = []) /\
    (forall p data, answer_now h p data -> exists l, panels pg = [l] /\ In l (labels_of (pr_algorithm p)) /\
       map (fun t => fst (fst t)) (tabs pg) = filter (fun l' => mem l' (labels_of (pr_algorithm p))) by_name /\
       forall l' name b, In (l', name, b) (tabs pg) -> In (l', name) display_names /\ (b = true <-> l' = l)).
  Proof.
    intros B. destruct (browse_inv h pg B) as (I1 & I2 & I3). split.
    - intros No. assert (D : displayed pg = false) by (unfold displayed; destruct (sv_state (pg_service pg)) eqn:Es; try reflexivity; destruct (I3 eq_refl) as (p & data & H); destruct (No p data H)).
      unfold panels, WebTabs.tabs. now rewrite D.
    - intros p data H. destruct (I2 p data H) as (Es & Er & (Nd & Kd & _ & Sub & _)). destruct (I1 data Er) as ((_ & l & Sh & Hl) & _). assert (D : displayed pg = true) by (unfold displayed; now rewrite Es).
      exists l. split; [exact (panels_shown pg data l D Sh Hl Sub)|]. split; [now apply Kd|].
      assert (Av : available_labels (for_in (dkeys data)) = filter (fun l' => mem l' (labels_of (pr_algorithm p))) by_name).
      { rewrite available_in_order.
        - apply filter_ext. intros x. apply Bool.eq_true_iff_eq. rewrite !mem_In. rewrite <- Kd. split; intros Hx; [exact (Permutation_in x (For_in _) Hx)|exact (Permutation_in x (Permutation_sym (For_in _)) Hx)].
        - exact (Permutation_NoDup (Permutation_sym (For_in _)) Nd).
        - intros x Hx. apply Sub. exact (Permutation_in x (For_in _) Hx). }
      unfold WebTabs.tabs. rewrite D, Er, Av, map_map. cbn [fst]. split; [apply map_id|]. intros l' name b Ht. apply in_map_iff in Ht. destruct Ht as (l1 & Et & H1).
      apply filter_In in H1. destruct H1 as [H1 _]. apply by_name_labels in H1. destruct (dget algorithm_labels l1) as [name1|] eqn:Dn; [|apply dget_None in Dn; contradiction].
      pose proof (proj1 (proj2 (proj2 (C79_labels l1)) name1) Dn) as Dk. pose proof (f_equal (fun t => fst (fst t)) Et) as E1. pose proof (f_equal (fun t => snd (fst t)) Et) as E2. pose proof (f_equal snd Et) as E3.
      cbn [fst snd] in E1, E2, E3. subst l' name b. split; [exact Dk|].
      unfold is_shown. rewrite Sh. destruct (beq_spec l l1) as [->|Nl]; split; auto; try discriminate; intros Q; congruence.
  Qed.
  (** a click on a tab displays the panel of its algorithm *)
  Theorem C107_click h pg l pg' o : browse h pg -> possible pg (ClickTab l) -> act (press_run (List.length h)) pg (ClickTab l) = (pg', o) -> panels pg' = [l].
  Proof.
    intros B Po E. pose proof (done h pg (ClickTab l) pg' o B Po E) as B'. destruct (browse_inv _ _ B') as (I1 & _). destruct (browse_inv _ _ B) as (_ & J2 & J3). cbn [act] in E. injection E as <- <-.
    cbn [WebTabs.possible] in Po. assert (D : displayed pg = true) by (unfold WebTabs.tabs in Po; destruct (displayed pg); [reflexivity|destruct Po]).
    assert (Es : sv_state (pg_service pg) = PHasResults) by (unfold displayed in D; destruct (sv_state (pg_service pg)); congruence). destruct (J3 Es) as (p & data & H). destruct (J2 p data H) as (_ & Er & (_ & _ & _ & Sub & _)).
    cbn [pg_service sv_results] in I1. destruct (I1 data Er) as ((_ & l1 & Sh & Hl) & _). cbn [pg_service sv_shown] in Sh. injection Sh as <-. apply (panels_shown _ data); auto.
  Qed.
  Lemma browse_functional h pg pg' : browse h pg -> browse h pg' -> pg = pg'.
  Proof.
    intros B. revert pg'. induction B as [|h pg x pg1 o B IH Po E]; intros pg' B'.
    - inversion B' as [|h' ? ? ? ? ? ? ? Eh]; [reflexivity|]. destruct h'; discriminate.
    - inversion B' as [Eh|h' pg2 x' pg3 o' B2 Po2 E2 Eh]; [destruct h; discriminate|]. subst. apply app_inj_tail in Eh. destruct Eh as [-> Ex]. injection Ex as -> ->. apply IH in B2. subst pg2. congruence.
  Qed.
  (** The panel displayed stays the same until another tab is clicked or an answer comes without it: presses that fail, answers that have
      it and sections that are opened or closed do not change it. *)
  Theorem C107_stays h pg h2 pg' l l' : browse h pg -> browse (h ++ h2) pg' -> panels pg = [l] -> panels pg' = [l'] ->
    (forall l1 o, ~ In (ClickTab l1, o) h2) -> (forall p q data ms, In (PressRun p, Some (Asked q (R200 data ms))) h2 -> In l (labels_of (pr_algorithm p))) -> l' = l.
  Proof.
    intros B B' Pl Pl' Nt Na.
    assert (Sh : forall h0 pg0 l0, browse h0 pg0 -> panels pg0 = [l0] -> sv_shown (pg_service pg0) = Some l0).
    { intros h0 pg0 l0 _ P0. unfold panels in P0. destruct (displayed pg0); [|discriminate]. assert (H : In l0 (filter (is_shown pg0) (dkeys algorithm_labels))) by (rewrite P0; now left). apply filter_In in H. destruct H as [_ H]. unfold is_shown in H.
      destruct (sv_shown (pg_service pg0)) as [l1|]; [|discriminate]. apply beq_eq in H. now subst. }
    enough (Q : forall h3 pg3, browse (h ++ h3) pg3 -> (forall l1 o, ~ In (ClickTab l1, o) h3) -> (forall p q data ms, In (PressRun p, Some (Asked q (R200 data ms))) h3 -> In l (labels_of (pr_algorithm p))) -> sv_shown (pg_service pg3) = Some l).
    { pose proof (Q h2 pg' B' Nt Na) as Q1. pose proof (Sh _ _ _ B' Pl') as Q2. congruence. }
    clear h2 pg' l' B' Pl' Nt Na. induction h3 as [|[x o] h3 IH] using rev_ind; intros pg3 B3 Nt Na.
    - rewrite app_nil_r in B3. rewrite (browse_functional _ _ _ B3 B). now apply (Sh h).
    - rewrite app_assoc in B3. inversion B3 as [Eh|h' pg2 x' pg4 o' B2 Po2 E2 Eh]; [destruct (h ++ h3); discriminate|]. subst. apply app_inj_tail in Eh. destruct Eh as [-> [= -> ->]].
      assert (S2 : sv_shown (pg_service pg2) = Some l).
      { apply IH; [exact B2|intros l1 o1 H; apply (Nt l1 o1), in_or_app; now left|intros p q data ms H; apply (Na p q data ms), in_or_app; now left]. }
      destruct x as [p|l1|l1 s]; cbn [act] in E2.
      + destruct (press_run (List.length (h ++ h3)) (pg_service pg2) p) as [o1 sv1] eqn:Pr. injection E2 as <- <-. cbn [pg_service]. pose proof Pr as Pr0. unfold WebPage.press_run in Pr.
        destruct (make_request toFixed10 stringify (sv_previous (pg_service pg2)) p) as [q|] eqn:Em; [|injection Pr as <- <-; exact S2].
        destruct (Front.web_run parse label pfloat decimal ord ltw rnd T show_nat show_w loads oset (clocks (List.length (h ++ h3))) fuel q) as [data ms|e| |e|] eqn:Er; injection Pr as <- <-; cbn [handle_response sv_shown]; try exact S2.
        rewrite S2. destruct (answer_good _ _ _ _ _ _ _ Pr0) as (_ & Kd & _). assert (Hl : In l (dkeys data)) by (apply Kd, (Na p q data ms), in_or_app; right; now left). unfold dmem. apply mem_In in Hl. now rewrite Hl.
      + exfalso. apply (Nt l1 o), in_or_app. right. now left.
      + injection E2 as <- <-. exact S2.
  Qed.
  (** clicks on the heading of a section, in whatever panel *)
  Definition clicks (s : section) (h : list event) : nat :=
    List.length (filter (fun e => match fst e with ClickHeading _ s' => if same_section s s' then true else false | _ => false end) h).
  Lemma output_clicks h pg : browse h pg -> forall s, pg_output pg s = Nat.even (clicks s h).
  Proof.
    induction 1 as [|h pg x pg' o B IH Po E]; intros s; [reflexivity|]. unfold clicks in *. rewrite filter_app, app_length. cbn [filter fst].
    destruct x as [p|l|l s']; cbn [act] in E.
    - destruct (press_run (List.length h) (pg_service pg) p) as [o1 sv1]. injection E as <- <-. cbn [pg_output List.length]. rewrite Nat.add_0_r. apply IH.
    - injection E as <- <-. cbn [pg_output List.length]. rewrite Nat.add_0_r. apply IH.
    - injection E as <- <-. cbn [pg_output]. replace (section_eqb s s') with (if same_section s s' then true else false) by (destruct s, s'; reflexivity). destruct (same_section s s'); cbn [List.length]; rewrite IH; [|now rewrite Nat.add_0_r]. rewrite Nat.add_1_r, Nat.even_succ. now rewrite <- Nat.negb_even.
  Qed.
  (** The panel displayed has all four sections, except that majority voting has no animation; their headings can be clicked.  A section is open, and its icon says so, if
      its heading has been clicked an even number of times since the page was opened, whatever the panels and answers in between. *)
  Theorem C107_sections h pg p data : browse h pg -> answer_now h p data ->
    (forall l s, In l (panels pg) -> (has_section pg l s = true <-> (s = SAnimation -> l <> lit_str "voting"))) /\
    (forall l s, possible pg (ClickHeading l s) <-> panels pg = [l] /\ (s = SAnimation -> l <> lit_str "voting")) /\
    (forall l s, section_open pg l s = true <-> panels pg = [l] /\ (s = SAnimation -> l <> lit_str "voting") /\ Nat.Even (clicks s h)) /\
    forall s, get_section_icon pg s = ArrowDown <-> Nat.Even (clicks s h).
  Proof.
    intros B H. destruct (browse_inv h pg B) as (I1 & I2 & _). destruct (I2 p data H) as (Es & Er & (_ & _ & _ & Sub & Ex)). destruct (I1 data Er) as ((_ & l0 & Sh & Hl0) & _).
    assert (D : displayed pg = true) by (unfold displayed; now rewrite Es). pose proof (panels_shown pg data l0 D Sh Hl0 Sub) as P0.
    assert (Ha : forall l s, In l (panels pg) -> (has_section pg l s = true <-> (s = SAnimation -> l <> lit_str "voting"))).
    { intros l s Hl. rewrite P0 in Hl. destruct Hl as [<-|[]]. unfold has_section. destruct s; try (split; [intros _ [=]|reflexivity]). unfold results_of. rewrite Er. destruct (dget data l0) as [e|] eqn:De; [|apply dget_None in De; contradiction].
      destruct (Ex l0 e De) as [V _]. destruct (we_animation e).
      - split; [|reflexivity]. intros _ _ Q. apply V in Q. discriminate.
      - split; [discriminate|]. intros Q. destruct (Q eq_refl). now apply V. }
    split; [exact Ha|]. split; [|split].
    - intros l s. cbn [possible]. split.
      + intros [H1 H2]. split; [rewrite P0 in *; destruct H1 as [<-|[]]; reflexivity|]. now apply (Ha l s).
      + intros [H1 H2]. assert (H0 : In l (panels pg)) by (rewrite H1; now left). split; [exact H0|]. now apply (Ha l s).
    - intros l s. unfold section_open. rewrite !Bool.andb_true_iff, mem_In, (output_clicks h pg B s). split.
      + intros [[H1 H2] H3]. split; [rewrite P0 in *; destruct H1 as [<-|[]]; reflexivity|]. split; [now apply (Ha l s)|]. now apply Nat.even_spec.
      + intros (H1 & H2 & H3). assert (H0 : In l (panels pg)) by (rewrite H1; now left). split; [split; [exact H0|now apply (Ha l s)]|]. now apply Nat.even_spec.
    - intros s. unfold get_section_icon. rewrite (output_clicks h pg B s). destruct (Nat.even (clicks s h)) eqn:Ev; [apply Nat.even_spec in Ev; tauto|]. split; [discriminate|]. intros Q. apply Nat.even_spec in Q. congruence.
  Qed.
  (** The number of rounds the panel shows: that of the answer; "N/A" for majority voting, and also for an algorithm that made none. *)
  Theorem C107_rounds_shown h pg p data l : browse h pg -> answer_now h p data -> panels pg = [l] ->
    exists e, dget data l = Some e /\
      (forall n, iterations_text pg l = Some n <-> n <> 0 /\ dget (we_fields e) FIterations = Some (VIterations (Some n))) /\
      (iterations_text pg l = None <-> l = lit_str "voting" \/ dget (we_fields e) FIterations = Some (VIterations (Some 0))).
  Proof.
    intros B H Pl. destruct (browse_inv h pg B) as (I1 & I2 & _). destruct (I2 p data H) as (Es & Er & (_ & _ & _ & Sub & Ex)). destruct (I1 data Er) as ((_ & l0 & Sh & Hl0) & _).
    assert (D : displayed pg = true) by (unfold displayed; now rewrite Es). rewrite (panels_shown pg data l0 D Sh Hl0 Sub) in Pl. injection Pl as ->.
    destruct (dget data l) as [e|] eqn:De; [|apply dget_None in De; contradiction]. exists e. split; [reflexivity|]. unfold iterations_text, results_of. rewrite Er, De. destruct (Ex l e De) as [_ V].
    destruct (beq_spec l (lit_str "voting")) as [->|Nl].
    - rewrite V. split; [intros n; split; [discriminate|intros [_ Q]; congruence]|]. split; auto.
    - destruct V as [[|k] ->]; (split; [intros n|]); split; try discriminate; auto; try (intros [[= <-] Q]; congruence).
      + intros [N0 Q]. congruence.
      + intros Q. injection Q as <-. split; [discriminate|reflexivity].
      + intros [_ Q]. congruence.
      + intros [Q|Q]; [contradiction|congruence].
  Qed.
End Visit.

(** * Non-vacuity *)
Module TabsExamples.
  Import CsvExamples ClientExamples CliExamples WebExamples PageExamples.
  Local Close Scope R_scope.
  Section AnyTrig.
    Variables (T : trig XR) (clocks : nat -> nat -> nat -> XR) (toFixed10 : XR -> pystr) (json_w : nat -> jval (F:=XR)) (stringify : jval (F:=XR) -> pystr) (loads : pystr -> option (jval (F:=XR))).
    Notation page_of := (web_run parse1 (fun n : nat => n) pf ascii_decimal ident Nat.ltb (fun _ => 0) T show1 show1 loads ident).
    Notation asks k := (press_run toFixed10 show1 show1 json_w stringify first_of (page_of (clocks k) 100)).
    Notation browsed := (browse parse1 (fun n : nat => n) pf ascii_decimal ident Nat.ltb (fun _ => 0) T show1 show1 loads ident toFixed10 json_w stringify first_of ident clocks 100).
    (** sums, average_log and voting are run; then the tab "MajorityVoting" is clicked, and the heading of the graph: the tabs are in the
        order of the names, the panel is that of voting, its graph is hidden, it has no animation, and its number of rounds is "N/A" *)
    Example three_clicks : exists h pg p data, browsed h pg /\ answer_now h p data /\
      map (fun t => fst (fst t)) (tabs ident pg) = [lit_str "average_log"; lit_str "voting"; lit_str "sums"] /\ panels pg = [lit_str "voting"] /\
      section_open pg (lit_str "voting") SGraph = false /\ section_open pg (lit_str "voting") STrust = true /\ has_section pg (lit_str "voting") SAnimation = false /\ iterations_text pg (lit_str "voting") = None.
    Proof.
      destruct (answered T loads (clocks 0)) as (out & ms & A & Keys).
      assert (E1 : asks 0 new_service voting_press = (Asked (request1 None) (R200 out ms), snd (asks 0 new_service voting_press))).
      { unfold press_run. assert (M : make_request toFixed10 stringify (sv_previous (new_service (W:=nat) (F:=XR))) voting_press = Some (request1 None)) by reflexivity. rewrite M. cbn [snd]. now rewrite A. }
      set (sv1 := snd (asks 0 new_service voting_press)) in E1. set (pg1 := Page sv1 (fun _ => true)). set (h1 := [(PressRun (F:=XR) voting_press, Some (Asked (W:=nat) (request1 None) (R200 out ms)))]).
      assert (B1 : browsed h1 pg1).
      { unfold h1. change [(PressRun (F:=XR) voting_press, Some (Asked (W:=nat) (request1 None) (R200 out ms)))] with ([] ++ [(PressRun (F:=XR) voting_press, Some (Asked (W:=nat) (request1 None) (R200 out ms)))]).
        eapply done; [constructor|discriminate|]. cbn [act List.length]. change (pg_service new_page) with (new_service (W:=nat) (F:=XR)). rewrite E1. reflexivity. }
      assert (N1 : answer_now h1 voting_press out) by (exists [], (request1 None), ms, []; split; [reflexivity|intros ? ? ? []]).
      assert (Disp : forall h pg, browsed h pg -> answer_now h voting_press out -> map (fun t => fst (fst t)) (tabs ident pg) = [lit_str "average_log"; lit_str "voting"; lit_str "sums"]).
      { intros h pg B N. destruct (C107_display parse1 (fun n : nat => n) pf ascii_decimal ascii_ok ident ident_ok Nat.ltb (fun _ => 0) xr_irrefl T show1 show1 loads ident ident_ok' show1_inj show1_inj toFixed10 json_w stringify first_of first_of_ok ident ident_ok' clocks 100 h pg B)
          as [_ Q]. destruct (Q _ _ N) as (l & _ & _ & Tb & _). rewrite Tb. exact eq_refl. }
      assert (P1 : possible ident pg1 (ClickTab (lit_str "voting"))).
      { cbn [possible]. change (In (lit_str "voting") (map (fun t : pystr * pystr * bool => fst (fst t)) (tabs ident pg1))). rewrite (Disp _ _ B1 N1). exact (or_intror (or_introl eq_refl)). }
      destruct (act (asks (List.length h1)) pg1 (ClickTab (lit_str "voting"))) as [pg2 o2] eqn:E2. pose proof (done _ _ _ _ _ _ _ _ _ _ _ _ _ _ _ _ _ _ _ _ _ _ _ _ B1 P1 E2) as B2.
      pose proof (C107_click parse1 (fun n : nat => n) pf ascii_decimal ascii_ok ident ident_ok Nat.ltb (fun _ => 0) xr_irrefl T show1 show1 loads ident ident_ok' show1_inj show1_inj toFixed10 json_w stringify first_of first_of_ok ident ident_ok' clocks 100 _ _ _ _ _ B1 P1 E2) as Pn2.
      assert (O2 : o2 = None) by (exact (eq_sym (f_equal snd E2))). subst o2. set (h2 := h1 ++ [(ClickTab (lit_str "voting"), None)]) in B2.
      assert (P2 : possible ident pg2 (ClickHeading (lit_str "voting") SGraph)) by (split; [rewrite Pn2; exact (or_introl eq_refl)|exact eq_refl]).
      destruct (act (asks (List.length h2)) pg2 (ClickHeading (lit_str "voting") SGraph)) as [pg3 o3] eqn:E3. pose proof (done _ _ _ _ _ _ _ _ _ _ _ _ _ _ _ _ _ _ _ _ _ _ _ _ B2 P2 E3) as B3.
      assert (O3 : o3 = None) by (exact (eq_sym (f_equal snd E3))). subst o3. set (h3 := h2 ++ [(ClickHeading (lit_str "voting") SGraph, None)]) in B3.
      assert (N3 : answer_now h3 voting_press out).
      { exists [], (request1 None), ms, [(ClickTab (lit_str "voting"), None); (ClickHeading (lit_str "voting") SGraph, None)]. split; [reflexivity|]. intros p' q' r' [H|[H|[]]]; discriminate H. }
      assert (Pn3 : panels pg3 = [lit_str "voting"]) by (exact (eq_trans (f_equal panels (eq_sym (f_equal fst E3))) Pn2)).
      destruct (C107_sections parse1 (fun n : nat => n) pf ascii_decimal ascii_ok ident ident_ok Nat.ltb (fun _ => 0) xr_irrefl T show1 show1 loads ident ident_ok' show1_inj show1_inj toFixed10 json_w stringify first_of first_of_ok ident ident_ok' clocks 100 _ _ _ _ B3 N3) as (S1 & _ & S2 & _).
      destruct (C107_rounds_shown parse1 (fun n : nat => n) pf ascii_decimal ascii_ok ident ident_ok Nat.ltb (fun _ => 0) xr_irrefl T show1 show1 loads ident ident_ok' show1_inj show1_inj toFixed10 json_w stringify first_of first_of_ok ident ident_ok' clocks 100 _ _ _ _ _ B3 N3 Pn3) as (e & _ & _ & R2).
      exists h3, pg3, voting_press, out. split; [exact B3|]. split; [exact N3|]. split; [exact (Disp _ _ B3 N3)|]. split; [exact Pn3|]. split; [|split; [|split]].
      - destruct (section_open pg3 (lit_str "voting") SGraph) eqn:So; [|reflexivity]. apply S2 in So. destruct So as (_ & _ & [k Hk]). vm_compute in Hk. destruct k as [|[|k]]; vm_compute in Hk; discriminate.
      - apply S2. split; [exact Pn3|]. split; [discriminate|]. exists 0. reflexivity.
      - destruct (has_section pg3 (lit_str "voting") SAnimation) eqn:Hs; [|reflexivity]. assert (Hin : In (lit_str "voting") (panels pg3)) by (rewrite Pn3; exact (or_introl eq_refl)). exfalso. exact (proj1 (S1 _ _ Hin) Hs eq_refl eq_refl).
      - apply R2. left. exact eq_refl.
    Qed.
  End AnyTrig.
End TabsExamples.
