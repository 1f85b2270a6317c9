(** C08: what num_connected_components computes, against the number of connected components of the graph. *)
From Coq Require Import Relations Classical Reals.
From Verif Require Import Base Num Sparse Spec Dataset DatasetProofs DatasetRep PropsData Float PropsFloat.
Import FloatExamples.

(** * Counting equivalence classes *)
Section Classes.
  Context {A : Type}.
  (** [n] is the number of classes of the relation [E] among the elements satisfying [P] *)
  Definition class_count (E : A -> A -> Prop) (P : A -> Prop) (n : nat) : Prop :=
    exists reps, length reps = n /\ (forall r, In r reps -> P r) /\
      ForallOrdPairs (fun a b => ~ E a b) reps /\ (forall x, P x -> exists r, In r reps /\ E r x).

  Lemma classes_le (E : A -> A -> Prop) (l m : list A) : (forall x y, E x y -> E y x) -> (forall x y z, E x y -> E y z -> E x z) ->
    ForallOrdPairs (fun a b => ~ E a b) l -> (forall x, In x l -> exists r, In r m /\ E r x) -> length l <= length m.
  Proof.
    intros Sy Tr. revert m. induction l as [|d l IH]; intros m P H; cbn; [lia|].
    destruct (H d (or_introl eq_refl)) as (z & Hz & Ez). apply in_split in Hz. destruct Hz as (l1 & l2 & ->).
    rewrite app_length. cbn. inversion P as [|? ? P1 P2]; subst. rewrite Nat.add_succ_r, <- app_length.
    apply le_n_S, IH; auto. intros y Hy. destruct (H y (or_intror Hy)) as (z' & Hz' & Ez').
    apply in_app_or in Hz'. destruct Hz' as [Hz'|[<-|Hz']].
    - exists z'. split; [apply in_or_app; auto|exact Ez'].
    - exfalso. rewrite Forall_forall in P1. apply (P1 y Hy). eauto.
    - exists z'. split; [apply in_or_app; auto|exact Ez'].
  Qed.
  Lemma class_count_unique (E : A -> A -> Prop) (P : A -> Prop) n m : (forall x y, E x y -> E y x) -> (forall x y z, E x y -> E y z -> E x z) ->
    class_count E P n -> class_count E P m -> n = m.
  Proof.
    intros Sy Tr (l & <- & L1 & L2 & L3) (k & <- & K1 & K2 & K3). apply Nat.le_antisymm; eapply classes_le; eauto.
  Qed.
  Lemma split_prop (Q : A -> Prop) (l : list A) : exists l1 l2, Permutation l (l1 ++ l2) /\ (forall x, In x l1 -> Q x) /\ (forall x, In x l2 -> ~ Q x).
  Proof.
    induction l as [|x l (l1 & l2 & Hp & H1 & H2)].
    - exists [], []. repeat split; auto; intros x [].
    - destruct (classic (Q x)) as [q|q].
      + exists (x :: l1), l2. split; [cbn; now constructor|]. split; [intros y [<-|Hy]; auto|exact H2].
      + exists l1, (x :: l2). split; [now apply Permutation_cons_app|]. split; [exact H1|intros y [<-|Hy]; auto].
  Qed.
  Lemma FOP_Permutation (Q : A -> A -> Prop) l m : (forall x y, Q x y -> Q y x) -> Permutation l m -> ForallOrdPairs Q l -> ForallOrdPairs Q m.
  Proof.
    intros Sy. induction 1 as [|x l m Hp IH|x y l|l m k H1 IH1 H2 IH2]; intros F; auto.
    - inversion F; subst. constructor; auto. rewrite Forall_forall in *. intros y Hy. apply H1. eapply Permutation_in; [symmetry; exact Hp|exact Hy].
    - inversion F as [|? ? F1 F2]; subst. inversion F2 as [|? ? F3 F4]; subst. inversion F1; subst. constructor; [constructor; auto|constructor; auto].
  Qed.
  Lemma FOP_app (Q : A -> A -> Prop) l m : ForallOrdPairs Q (l ++ m) -> ForallOrdPairs Q l /\ ForallOrdPairs Q m /\ (forall x y, In x l -> In y m -> Q x y).
  Proof.
    induction l as [|a l IH]; cbn; intros H; [repeat split; auto; [constructor|intros x y []]|].
    inversion H as [|? ? H1 H2]; subst. destruct (IH H2) as (A1 & A2 & A3). rewrite Forall_forall in H1. repeat split; auto.
    - constructor; auto. apply Forall_forall. intros x Hx. apply H1. apply in_or_app; auto.
    - intros x y [<-|Hx] Hy; [apply H1, in_or_app; auto|auto].
  Qed.
End Classes.

(** * Adding elements one at a time *)
Section OneByOne.
  Context {A : Type} (sh : A -> A -> Prop).
  Hypothesis sh_refl : forall x, sh x x.
  Hypothesis sh_sym : forall x y, sh x y -> sh y x.
  (** linked through elements of [l] only *)
  Inductive linked (l : list A) : A -> A -> Prop :=
  | l_step x y : In x l -> In y l -> sh x y -> linked l x y
  | l_trans x y z : linked l x y -> linked l y z -> linked l x z.
  Lemma linked_sym l x y : linked l x y -> linked l y x.
  Proof. induction 1; [apply l_step; auto|eapply l_trans; eauto]. Qed.
  Lemma linked_refl l x : In x l -> linked l x x.
  Proof. intros H. apply l_step; auto. Qed.
  Lemma linked_mono l m x y : incl l m -> linked l x y -> linked m x y.
  Proof. intros Hi. induction 1; [apply l_step; auto|eapply l_trans; eauto]. Qed.
  Lemma linked_in l x y : linked l x y -> In x l /\ In y l.
  Proof. induction 1; tauto. Qed.
  Definition touches l s x : Prop := exists y, In y l /\ sh y s /\ linked l x y.
  (** two old elements are linked after adding [s] iff they were, or both touch [s] *)
  Lemma linked_snoc l s x y : linked (l ++ [s]) x y ->
    (x = s \/ touches l s x) /\ (y = s \/ touches l s y) \/ linked l x y.
  Proof.
    assert (Ti : forall x y, linked l x y -> touches l s y -> touches l s x).
    { intros a b H (z & Hz & Hz' & Hl). exists z. repeat split; auto. eapply l_trans; eauto. }
    induction 1 as [x y Hx Hy H|x y z H1 IH1 H2 IH2].
    - apply in_app_or in Hx, Hy. destruct Hx as [Hx|[<-|[]]], Hy as [Hy|[<-|[]]].
      + right. now apply l_step.
      + left. split; [right|auto]. exists x. split; [exact Hx|]. split; [exact H|]. now apply linked_refl.
      + left. split; [auto|right]. exists y. split; [exact Hy|]. split; [now apply sh_sym|]. now apply linked_refl.
      + left. auto.
    - destruct IH1 as [[Ax Ay]|L1], IH2 as [[By Bz]|L2].
      + left. auto.
      + destruct Ay as [->|Ay].
        * apply linked_in in L2 as L2'. left. split; [exact Ax|]. right. exists s. split; [tauto|]. split; [apply sh_refl|]. now apply linked_sym.
        * left. split; [exact Ax|]. right. eapply Ti; [apply linked_sym; exact L2|exact Ay].
      + destruct By as [->|By].
        * apply linked_in in L1 as L1'. left. split; [right|exact Bz]. exists s. split; [tauto|]. split; [apply sh_refl|exact L1].
        * left. split; [right; eapply Ti; eauto|exact Bz].
      + right. eapply l_trans; eauto.
  Qed.
  Definition count l n := class_count (linked l) (fun x => In x l) n.
  (** [s] touches at most one class of [l] *)
  Definition joins l s : Prop := exists s1 s2, In s1 l /\ In s2 l /\ sh s1 s /\ sh s2 s /\ ~ linked l s1 s2.
  Lemma count_snoc l s n : ~ In s l -> count l n ->
    exists n', count (l ++ [s]) n' /\
      ((forall x, In x l -> ~ sh x s) -> n' = S n) /\
      ((exists x, In x l /\ sh x s) -> n' <= n /\ (n' = n <-> ~ joins l s)).
  Proof.
    intros Hs (reps & <- & R1 & R2 & R3).
    destruct (split_prop (touches l s) reps) as (l1 & l2 & Hp & H1 & H2).
    assert (Rin : forall r, In r l1 \/ In r l2 -> In r reps).
    { intros r Hr. eapply Permutation_in; [symmetry; exact Hp|]. apply in_or_app. exact Hr. }
    assert (F : ForallOrdPairs (fun a b => ~ linked l a b) (l1 ++ l2)).
    { eapply FOP_Permutation; [|exact Hp|exact R2]. intros x y H Hl. apply H. now apply linked_sym. }
    apply FOP_app in F. destruct F as (F1 & F2 & F3).
    exists (S (length l2)). assert (Len : length reps = length l1 + length l2) by (rewrite (Permutation_length Hp), app_length; reflexivity).
    split; [|split].
    - exists (s :: l2). split; [reflexivity|]. split; [|split].
      + intros r [<-|Hr]; apply in_or_app; [right; now left|left; auto].
      + constructor.
        * apply Forall_forall. intros r Hr Hl. apply linked_snoc in Hl. destruct Hl as [[_ [->|T]]|L].
          -- apply Hs, R1. auto.
          -- now apply (H2 r).
          -- apply linked_in in L. tauto.
        * clear F3 Hp Len. induction F2 as [|a l2 Ha F2 IH]; constructor.
          -- rewrite Forall_forall in *. intros b Hb Hl. apply linked_snoc in Hl. destruct Hl as [[[->|T] _]|L].
             ++ apply Hs, R1, Rin. right. now left.
             ++ apply (H2 a); [now left|exact T].
             ++ now apply (Ha b Hb).
          -- apply IH; [intros x Hx; apply H2; now right|]. intros r Hr. apply Rin. destruct Hr; [auto|right; now right].
      + intros x Hx. apply in_app_or in Hx. destruct Hx as [Hx|[<-|[]]].
        * destruct (R3 x Hx) as (r & Hr & Hl). pose proof (Permutation_in _ Hp Hr) as Hr'. apply in_app_or in Hr'. destruct Hr' as [Hr'|Hr'].
          -- exists s. split; [now left|]. destruct (H1 r Hr') as (y & Hy & Hsy & Hly). eapply l_trans with y.
             ++ apply l_step; [apply in_or_app; right; now left|apply in_or_app; auto|now apply sh_sym].
             ++ apply (linked_mono l); [intros z Hz; apply in_or_app; auto|]. apply linked_sym. eapply l_trans; [apply linked_sym; exact Hl|exact Hly].
          -- exists r. split; [now right|]. apply (linked_mono l); [intros z Hz; apply in_or_app; auto|exact Hl].
        * exists s. split; [now left|]. apply linked_refl. apply in_or_app; right; now left.
    - intros N. destruct l1 as [|r l1]; [cbn in Len; lia|exfalso]. destruct (H1 r (or_introl eq_refl)) as (y & Hy & Hsy & _). now apply (N y).
    - intros (x & Hx & Hsx).
      assert (T : exists r, In r l1 /\ linked l r x).
      { destruct (R3 x Hx) as (r & Hr & Hl). exists r. split; [|exact Hl]. pose proof (Permutation_in _ Hp Hr) as Hr'. apply in_app_or in Hr'. destruct Hr' as [Hr'|Hr']; [exact Hr'|].
        exfalso. apply (H2 r Hr'). exists x. auto. }
      destruct T as (r & Hr & Hl). destruct l1 as [|r0 l1]; [destruct Hr|]. cbn in Len. split; [lia|]. split.
      + intros Hn (s1 & s2 & I1 & I2 & S1 & S2 & NL). assert (l1 = []) by (destruct l1; [reflexivity|cbn in Len; lia]). subst l1.
        assert (U : forall z, In z l -> sh z s -> linked l r0 z).
        { intros z Hz Hsz. destruct (R3 z Hz) as (r' & Hr' & Hl'). pose proof (Permutation_in _ Hp Hr') as Hr2. apply in_app_or in Hr2. destruct Hr2 as [[->|[]]|Hr2]; [exact Hl'|].
          exfalso. apply (H2 r' Hr2). exists z. auto. }
        apply NL. eapply l_trans; [apply linked_sym|]; apply U; auto.
      + intros NJ. destruct l1 as [|r1 l1]; [cbn in Len; lia|exfalso]. apply NJ.
        destruct (H1 r0 (or_introl eq_refl)) as (y0 & Y1 & Y2 & Y3). destruct (H1 r1 (or_intror (or_introl eq_refl))) as (y1 & Z1 & Z2 & Z3).
        exists y0, y1. repeat split; auto. intros L. inversion F1 as [|? ? G1 G2]; subst. inversion G1 as [|? ? G3 G4]; subst. apply G3.
        eapply l_trans; [exact Y3|]. eapply l_trans; [exact L|]. now apply linked_sym.
  Qed.
  (** the number of elements that have nothing in common with an earlier one *)
  Inductive newcomers : list A -> nat -> Prop :=
  | nc_nil : newcomers [] 0
  | nc_new l s n : newcomers l n -> (forall x, In x l -> ~ sh x s) -> newcomers (l ++ [s]) (S n)
  | nc_old l s n : newcomers l n -> (exists x, In x l /\ sh x s) -> newcomers (l ++ [s]) n.
  Definition no_joins l : Prop := forall l1 s l2, l = l1 ++ s :: l2 -> ~ joins l1 s.
  Lemma no_joins_snoc l s : no_joins (l ++ [s]) <-> no_joins l /\ ~ joins l s.
  Proof.
    split.
    - intros H. split; [|apply (H l s []); reflexivity]. intros l1 s' l2 ->. apply (H l1 s' (l2 ++ [s])). now rewrite <- app_assoc.
    - intros [H1 H2] l1 s' l2 E. destruct (exists_last (l:=s' :: l2)) as (k & z & Ez); [discriminate|]. rewrite Ez, app_assoc in E. apply app_inj_tail in E. destruct E as [E ->].
      destruct k as [|a k]; [cbn in Ez; injection Ez as -> ->; rewrite app_nil_r in E; now subst|]. injection Ez as <- E'. eapply H1. exact E.
  Qed.
  Theorem newcomers_count l m : NoDup l -> newcomers l m -> exists n, count l n /\ n <= m /\ (n = m <-> no_joins l).
  Proof.
    intros ND H. induction H as [|l s m H IH N|l s m H IH O].
    - exists 0. split; [|split; [lia|]].
      + exists []. split; [reflexivity|]. split; [intros x []|]. split; [constructor|intros x []].
      + split; [|auto]. intros _ l1 s l2 E. destruct l1; discriminate.
    - apply NoDup_remove in ND. rewrite app_nil_r in ND. destruct ND as [ND Hs]. destruct (IH ND) as (n & Hn & Hle & Hiff).
      destruct (count_snoc l s n Hs Hn) as (n' & Hn' & H1 & _). exists n'. split; [exact Hn'|]. rewrite (H1 N). split; [lia|].
      rewrite no_joins_snoc, <- Hiff. split; [|lia]. intros E. split; [lia|]. intros (s1 & s2 & I1 & _ & S1 & _). now apply (N s1).
    - apply NoDup_remove in ND. rewrite app_nil_r in ND. destruct ND as [ND Hs]. destruct (IH ND) as (n & Hn & Hle & Hiff).
      destruct (count_snoc l s n Hs Hn) as (n' & Hn' & _ & H2). destruct (H2 O) as [H3 H4]. exists n'. split; [exact Hn'|]. split; [lia|].
      rewrite no_joins_snoc, <- Hiff, <- H4. lia.
  Qed.
End OneByOne.

(** * The graph of a dataset *)
Section Graph.
  Context {S V W : Type} {ES : Eqb S} {EV : Eqb V} {EW : Eqb W}.
  Notation claim := (V * W)%type.
  Variable ts : list (S * V * W).
  Inductive node := NSource (s : S) | NClaim (c : claim) | NVariable (x : V).
  Definition is_node (a : node) : Prop :=
    match a with NSource s => In s (sources ts) | NClaim c => In c (claims ts) | NVariable x => In x (variables ts) end.
  (** edges connect sources to their claims and claims to their variables *)
  Inductive edge : node -> node -> Prop :=
  | e_says s c : says ts s c = true -> edge (NSource s) (NClaim c)
  | e_about c : In c (claims ts) -> edge (NClaim c) (NVariable (fst c)).
  Definition connected : node -> node -> Prop := clos_refl_sym_trans node edge.
  (** [n] is the number of connected components *)
  Definition components (n : nat) : Prop := class_count connected is_node n.

  (** two sources have claims about a common variable *)
  Definition share (s s' : S) : Prop := exists c c', In c (claims_of ts s) /\ In c' (claims_of ts s') /\ fst c = fst c'.
  Definition meets (s s' : S) : Prop := s = s' \/ share s s'.
  (** some source has claims in common variables with two earlier sources which are not linked through earlier sources *)
  Definition some_source_joins : Prop := ~ no_joins meets (sources ts).

  Lemma share_sym s s' : share s s' -> share s' s.
  Proof. intros (c & c' & H1 & H2 & E). exists c', c. auto. Qed.
  Lemma meets_sym s s' : meets s s' -> meets s' s.
  Proof. intros [->|H]; [left; auto|right; now apply share_sym]. Qed.
  Lemma meets_refl s : meets s s. Proof. now left. Qed.
  Notation lk := (linked meets (sources ts)).
  Definition anchor (a : node) (s : S) : Prop :=
    match a with NSource s' => s = s' /\ In s (sources ts) | NClaim c => says ts s c = true | NVariable x => exists c, In c (claims_of ts s) /\ fst c = x end.
  Lemma anchor_src a s : anchor a s -> In s (sources ts).
  Proof.
    destruct a; cbn; [tauto|apply says_source|]. intros (c & Hc & _). unfold claims_of in Hc. apply filter_In in Hc. eapply says_source. apply Hc.
  Qed.
  Lemma says_claims_of s c : says ts s c = true -> In c (claims_of ts s).
  Proof. intros H. unfold claims_of. apply filter_In. split; [apply claims_In; eauto|exact H]. Qed.
  Lemma node_anchor a : is_node a -> exists s, anchor a s.
  Proof.
    destruct a as [s|c|x]; cbn; intros H.
    - exists s. auto.
    - apply claims_In in H. exact H.
    - destruct (variable_claims ts x H) as (v & Hv). pose proof Hv as Hv'. apply claims_In in Hv'. destruct Hv' as (s & Hs). exists s, (x, v). split; [now apply says_claims_of|reflexivity].
  Qed.
  Lemma edge_nodes a b : edge a b -> is_node a /\ is_node b.
  Proof.
    destruct 1 as [s c H|c H]; cbn.
    - split; [now apply says_source in H|]. apply claims_In. eauto.
    - split; [exact H|]. now apply claims_var.
  Qed.
  Lemma connected_nodes a b : connected a b -> a = b \/ is_node a /\ is_node b.
  Proof.
    induction 1 as [a b H|a|a b H IH|a b c H1 IH1 H2 IH2].
    - right. now apply edge_nodes.
    - auto.
    - destruct IH as [->|IH]; [auto|right; tauto].
    - destruct IH1 as [->|IH1]; [exact IH2|]. destruct IH2 as [->|IH2]; [right; tauto|right; tauto].
  Qed.
  Lemma same_anchor a s s' : anchor a s -> anchor a s' -> lk s s'.
  Proof.
    intros H1 H2. apply l_step; [now apply anchor_src in H1|now apply anchor_src in H2|]. destruct a as [s0|c|x]; cbn in *.
    - destruct H1 as [-> _], H2 as [-> _]. apply meets_refl.
    - right. exists c, c. repeat split; now apply says_claims_of.
    - right. destruct H1 as (c & Hc & E), H2 as (c' & Hc' & E'). exists c, c'. repeat split; auto. congruence.
  Qed.
  Lemma edge_anchor a b s s' : edge a b -> anchor a s -> anchor b s' -> lk s s'.
  Proof.
    intros He H1 H2. apply l_step; [now apply anchor_src in H1|now apply anchor_src in H2|]. right. destruct He as [s0 c H|c H]; cbn in *.
    - destruct H1 as [-> _]. exists c, c. repeat split; now apply says_claims_of.
    - destruct H2 as (c' & Hc' & E). exists c, c'. repeat split; auto. now apply says_claims_of.
  Qed.
  Lemma connected_linked a b : connected a b -> forall s s', anchor a s -> anchor b s' -> lk s s'.
  Proof.
    induction 1 as [a b H|a|a b H IH|a b c H1 IH1 H2 IH2]; intros s s' Ha Hb.
    - eapply edge_anchor; eauto.
    - eapply same_anchor; eauto.
    - apply linked_sym; [apply meets_sym|]. now apply IH.
    - destruct (connected_nodes _ _ H1) as [->|[_ Nb]]; [eauto|]. destruct (node_anchor b Nb) as (s0 & Hs0). eapply l_trans; eauto.
  Qed.
  Lemma anchor_connected a s : anchor a s -> connected a (NSource s).
  Proof.
    destruct a as [s0|c|x]; cbn.
    - intros [-> _]. apply rst_refl.
    - intros H. apply rst_sym, rst_step. now constructor.
    - intros (c & Hc & <-). unfold claims_of in Hc. apply filter_In in Hc. destruct Hc as [Hc Hs].
      apply rst_trans with (NClaim c); [apply rst_sym, rst_step; now constructor|apply rst_sym, rst_step; now constructor].
  Qed.
  Lemma linked_connected s s' : lk s s' -> connected (NSource s) (NSource s').
  Proof.
    induction 1 as [s s' H1 H2 [->|(c & c' & Hc & Hc' & E)]|s s' s'' H1 IH1 H2 IH2].
    - apply rst_refl.
    - apply rst_trans with (NVariable (fst c)); [apply rst_sym|rewrite E]; apply anchor_connected; cbn; eauto.
    - eapply rst_trans; eauto.
  Qed.
  Lemma components_sources n : count meets (sources ts) n -> components n.
  Proof.
    intros (reps & <- & R1 & R2 & R3). exists (map NSource reps). split; [apply map_length|]. split; [|split].
    - intros r Hr. apply in_map_iff in Hr. destruct Hr as (s & <- & Hs). cbn. auto.
    - clear R3. induction R2 as [|a l H F IH]; cbn; constructor.
      + rewrite Forall_forall in *. intros b Hb. apply in_map_iff in Hb. destruct Hb as (s & <- & Hs). intros C. apply (H s Hs).
        apply (connected_linked _ _ C); cbn; split; auto; apply R1; cbn; auto.
      + apply IH. intros r Hr. apply R1. now right.
    - intros a Ha. destruct (node_anchor a Ha) as (s & Hs). destruct (R3 s (anchor_src _ _ Hs)) as (r & Hr & Hl).
      exists (NSource r). split; [now apply in_map|]. apply rst_trans with (NSource s); [exact (linked_connected r s Hl)|]. apply rst_sym. now apply anchor_connected.
  Qed.
  Lemma components_unique n m : components n -> components m -> n = m.
  Proof. apply class_count_unique; [apply rst_sym|apply rst_trans]. Qed.
End Graph.

(** * What the code computes *)
Section Code.
  Context {S V W : Type} {ES : Eqb S} {EV : Eqb V} {EW : Eqb W} {F : Num} {FOK : NumOK F}.
  Variables (b : bool) (impf : option (V -> W -> W -> option F)) (ts : list (S * V * W)) (d : dataset S V W F).
  Hypothesis Hb : build b impf ts = Ok d.
  Let R : ds_rep ts impf d := build_rep _ _ _ _ Hb.

  Definition vpos (c : V * W) : nat := pos (fst c) (variables ts).
  Lemma row_vars_rep i s : nth_error (sources ts) i = Some s -> row_vars d i = Some (map vpos (claims_of ts s)).
  Proof.
    intros Hs. unfold row_vars. destruct (rep_sc _ _ _ R) as (Hr & Hc & Hm). rewrite Hc.
    assert (E : fold_right (fun j acc => match inverse (claim_ids d) j, acc with Some (var_id, _), Some l => Some (var_id :: l) | _, _ => None end) (Some [])
        (filter (fun j => m_stored (sc d) i j && negb (n_eqb (m_entry (sc d) i j) (n_ofZ 0))) (seq 0 (length (claims ts))))
      = fold_right (fun o acc => match o, acc with Some (var_id, _), Some l => Some (var_id :: l) | _, _ => None end) (Some [])
          (map (fun j => inverse (claim_ids d) j) (filter (fun j => m_stored (sc d) i j && negb (n_eqb (m_entry (sc d) i j) (n_ofZ 0))) (seq 0 (length (claims ts)))))).
    { generalize (filter (fun j => m_stored (sc d) i j && negb (n_eqb (m_entry (sc d) i j) (n_ofZ 0))) (seq 0 (length (claims ts)))) as l. induction l as [|j l IH]; cbn; [reflexivity|]. now rewrite IH. }
    rewrite E. rewrite (filter_seq_nth _ _ (says ts s) (fun c => Some (enc (variables ts) (values ts) c))).
    - fold (claims_of ts s). induction (claims_of ts s) as [|c l IH]; cbn; [reflexivity|]. now rewrite IH.
    - intros j c Hj. destruct (Hm i j s c Hs Hj) as [H1 H2]. rewrite H1. destruct (says ts s c) eqn:Es; [|reflexivity]. rewrite H2 by reflexivity.
      rewrite one_nonzero. reflexivity.
    - intros j c Hj _. rewrite (rep_cl _ _ _ R), inverse_ids, nth_error_map, Hj. reflexivity.
  Qed.
  Lemma shares_seen (l : list S) s : existsb (fun v => mem v (flat_map (fun s' => map vpos (claims_of ts s')) l)) (map vpos (claims_of ts s)) = true
    <-> exists s', In s' l /\ share ts s' s.
  Proof.
    assert (Cv : forall s c, In c (claims_of ts s) -> In (fst c) (variables ts)).
    { intros s0 c Hc. unfold claims_of in Hc. apply filter_In in Hc. now apply claims_var. }
    rewrite existsb_exists. split.
    - intros (v & Hv & Hm). apply mem_In, in_flat_map in Hm. destruct Hm as (s' & Hs' & Hv'). apply in_map_iff in Hv, Hv'.
      destruct Hv as (c & <- & Hc), Hv' as (c' & E & Hc'). exists s'. split; [exact Hs'|]. exists c', c. repeat split; auto.
      unfold vpos in E. apply pos_inj in E; eauto.
    - intros (s' & Hs' & c & c' & Hc & Hc' & E). exists (vpos c'). split; [now apply in_map|]. apply mem_In, in_flat_map. exists s'. split; [exact Hs'|].
      apply in_map_iff. exists c. split; [unfold vpos; now rewrite E|exact Hc].
  Qed.
  Lemma ncc_newcomers : exists m, num_connected_components d = Some m /\ newcomers (meets ts) (sources ts) m.
  Proof.
    unfold num_connected_components. destruct (rep_sc _ _ _ R) as (Hr & _ & _). rewrite Hr.
    assert (G : forall rest done seen m, sources ts = done ++ rest -> seen = flat_map (fun s' => map vpos (claims_of ts s')) done -> newcomers (meets ts) done m ->
      exists m', comps_from d (seq (length done) (length rest)) seen m = Some m' /\ newcomers (meets ts) (sources ts) m').
    { induction rest as [|s rest IH]; intros done seen m E Es Hn.
      - rewrite app_nil_r in E. cbn. exists m. split; [reflexivity|]. now rewrite E.
      - cbn [length seq comps_from]. rewrite (row_vars_rep (length done) s) by (rewrite E, nth_error_app2, Nat.sub_diag by lia; reflexivity).
        assert (Ns : ~ In s done).
        { pose proof (sources_NoDup ts) as ND. rewrite E in ND. apply NoDup_remove_2 in ND. intros H. apply ND, in_or_app. auto. }
        replace (Datatypes.S (length done)) with (length (done ++ [s])) by (rewrite app_length; cbn; lia). apply IH.
        + rewrite <- app_assoc. exact E.
        + rewrite flat_map_app. cbn. now rewrite app_nil_r, Es.
        + rewrite Es. destruct (existsb _ _) eqn:Ex.
          * apply shares_seen in Ex. destruct Ex as (s' & Hs' & Hsh). apply nc_old; [exact Hn|]. exists s'. split; [exact Hs'|]. now right.
          * apply nc_new; [exact Hn|]. intros x Hx [->|Hsh]; [contradiction|].
            assert (existsb (fun v => mem v (flat_map (fun s' => map vpos (claims_of ts s')) done)) (map vpos (claims_of ts s)) = true) by (apply shares_seen; eauto). congruence. }
    apply (G (sources ts) [] [] 0); [reflexivity|reflexivity|constructor].
  Qed.

  (** It always returns a number, never less than the number of connected components (and there is exactly one such
      number), and equal to it if and only if no source joins components formed by earlier sources. *)
  Theorem C08_components : exists n m, components ts n /\ (forall n', components ts n' -> n' = n) /\
    num_connected_components d = Some m /\ n <= m /\ (m = n <-> ~ some_source_joins ts).
  Proof.
    destruct ncc_newcomers as (m & Hm & Hn).
    destruct (newcomers_count (meets ts) (meets_refl ts) (meets_sym ts) (sources ts) m (sources_NoDup ts) Hn) as (n & Hc & Hle & Hiff).
    exists n, m. pose proof (components_sources ts n Hc) as Hcs. split; [exact Hcs|]. split; [intros n' Hn'; exact (components_unique ts n' n Hn' Hcs)|].
    split; [exact Hm|]. split; [exact Hle|]. unfold some_source_joins. split.
    - intros E H. apply H, Hiff. congruence.
    - intros H. symmetry. apply Hiff. now apply NNPP.
  Qed.
End Code.

(** The full property is false: sources 1 and 2 make claims about different variables, source 3 about both.  There is one
    component; the code counts two. *)
Module CompExamples.
  Definition ts : list (nat * nat * nat) := [(1,1,1); (2,2,1); (3,1,1); (3,2,1)].
  Theorem C08_components_refuted : exists d, build (F:=B64 lm) false None ts = Ok d /\ num_connected_components d = Some 2 /\
    components ts 1 /\ ~ components ts 2.
  Proof.
    assert (C : components ts 1).
    { apply components_sources. exists [1]. split; [reflexivity|].
      assert (Hs : sources ts = [1; 2; 3]) by reflexivity. rewrite Hs.
      split; [intros r [<-|[]]; cbn; auto|]. split; [repeat constructor|].
      assert (L13 : linked (meets ts) [1; 2; 3] 1 3).
      { apply l_step; cbn; auto. right. exists (1, 1), (1, 1). vm_compute. auto 10. }
      assert (L23 : linked (meets ts) [1; 2; 3] 3 2).
      { apply l_step; cbn; auto. right. exists (2, 1), (2, 1). vm_compute. auto 10. }
      intros x Hx. exists 1. split; [now left|]. destruct Hx as [<-|[<-|[<-|[]]]].
      - apply linked_refl; [apply meets_refl|cbn; auto].
      - eapply l_trans; eauto.
      - exact L13. }
    destruct (strict_builds64 ts) as (d & Hd); [unfold ts, sv_pairs; cbn; repeat constructor; cbn; intuition congruence|].
    assert (N : match build (F:=B64 lm) false None ts with Ok d => num_connected_components d | Err _ => None end = Some 2) by (vm_compute; reflexivity).
    rewrite Hd in N. exists d. split; [exact Hd|]. split; [exact N|]. split; [exact C|].
    intros C2. pose proof (components_unique ts 1 2 C C2). discriminate.
  Qed.
  (* and a dataset on which the count is exact: two components, the second one with two sources *)
  Definition ts' : list (nat * nat * nat) := [(1,1,1); (2,2,1); (3,2,2); (2,3,1)].
  Example exact : exists d, build (F:=B64 lm) false None ts' = Ok d /\ num_connected_components d = Some 2 /\ components ts' 2 /\ ~ some_source_joins ts'.
  Proof.
    assert (C : components ts' 2).
    { apply components_sources. exists [1; 2]. split; [reflexivity|].
      assert (Hs : sources ts' = [1; 2; 3]) by reflexivity. rewrite Hs.
      assert (N1 : forall x y, linked (meets ts') [1; 2; 3] x y -> (x = 1 <-> y = 1)).
      { induction 1 as [x y Hx Hy [->|(c & c' & Hc & Hc' & E)]|x y z _ IH1 _ IH2]; [tauto| |tauto].
        assert (H1 : claims_of ts' 1 = [(1, 1)]) by reflexivity. assert (H2 : claims_of ts' 2 = [(2, 1); (3, 1)]) by reflexivity.
        assert (H3 : claims_of ts' 3 = [(2, 2)]) by reflexivity.
        destruct Hx as [<-|[<-|[<-|[]]]], Hy as [<-|[<-|[<-|[]]]]; try tauto; try (split; intros Q; discriminate Q); exfalso; rewrite ?H1, ?H2, ?H3 in Hc, Hc'; cbn in Hc, Hc'; repeat (match goal with H : _ \/ _ |- _ => destruct H | H : False |- _ => destruct H end); subst; cbn in E; discriminate E. }
      split; [intros r [<-|[<-|[]]]; cbn; auto|]. split.
      - constructor; [|repeat constructor]. constructor; [|constructor]. intros L. apply N1 in L. intuition discriminate.
      - intros x [<-|[<-|[<-|[]]]].
        + exists 1. split; [cbn; auto|]. apply linked_refl; [apply meets_refl|cbn; auto].
        + exists 2. split; [cbn; auto|]. apply linked_refl; [apply meets_refl|cbn; auto].
        + exists 2. split; [cbn; auto|]. apply l_step; cbn; auto. right. exists (2, 1), (2, 2). vm_compute. auto 10. }
    destruct (strict_builds64 ts') as (d & Hd); [unfold ts', sv_pairs; cbn; repeat constructor; cbn; intuition congruence|].
    assert (N : match build (F:=B64 lm) false None ts' with Ok d => num_connected_components d | Err _ => None end = Some 2) by (vm_compute; reflexivity).
    rewrite Hd in N. exists d. split; [exact Hd|]. split; [exact N|]. split; [exact C|].
    destruct (C08_components false None ts' d Hd) as (n & m & Cn & Un & Em & _ & Hiff). rewrite N in Em. injection Em as <-.
    rewrite <- (Un 2 C) in Hiff. now apply Hiff.
  Qed.
End CompExamples.
