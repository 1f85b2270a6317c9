(** C46: the output object of the clients. *)
From Coq Require Import NArith String Reals Lra Sorted.
From Verif Require Import Base Num Spec SpecAlg Dataset Iterators Algorithms Ranking Results PropsResult PyStr Regex Supervised PropsAcc Client.

(** sorting with a strict total order *)
Section Sorting.
  Context {A : Type} (lt : A -> A -> bool).
  Lemma insert_perm x l : Permutation (insert_by lt x l) (x :: l).
  Proof. induction l as [|y l IH]; cbn [insert_by]; [reflexivity|]. destruct (lt y x); [|reflexivity]. rewrite IH. constructor. Qed.
  Lemma sort_perm l : Permutation (sort_with lt l) l.
  Proof. induction l as [|x l IH]; [constructor|]. cbn [sort_with fold_right]. rewrite insert_perm. fold (sort_with lt l). now rewrite IH. Qed.
  Definition strict_total : Prop :=
    (forall x, lt x x = false) /\ (forall x y z, lt x y = true -> lt y z = true -> lt x z = true) /\ (forall x y, lt x y = true \/ x = y \/ lt y x = true).
  (** what sorting needs: a strict weak order *)
  Definition strict_weak : Prop := (forall x y, lt x y = true -> lt y x = false) /\ (forall x y z, lt y x = false -> lt z y = false -> lt z x = false).
  Lemma strict_total_weak : strict_total -> strict_weak.
  Proof.
    intros (Irr & Tr & To). assert (As : forall x y, lt x y = true -> lt y x = false) by (intros x y H; destruct (lt y x) eqn:E; [|reflexivity]; rewrite <- (Irr x); symmetry; now apply Tr with y).
    split; [exact As|]. intros x y z H1 H2. destruct (To x y) as [H|[->|H]]; [|assumption|congruence]. destruct (To y z) as [H'|[->|H']]; [|assumption|congruence]. apply As. now apply Tr with y.
  Qed.
  Lemma insert_sorted_weak x l : strict_weak -> StronglySorted (fun a b => lt b a = false) l -> StronglySorted (fun a b => lt b a = false) (insert_by lt x l).
  Proof.
    intros (As & Nt) H. induction H as [|y l Hs IH Hy]; cbn [insert_by]; [repeat constructor|]. destruct (lt y x) eqn:E.
    - constructor; [exact IH|]. rewrite Forall_forall in Hy |- *. intros z Hz. apply (Permutation_in z (insert_perm x l)) in Hz. destruct Hz as [<-|Hz]; auto.
    - constructor; [constructor; assumption|]. constructor; [exact E|]. rewrite Forall_forall in Hy |- *. intros z Hz. apply Nt with y; auto.
  Qed.
  Lemma sort_sorted_weak l : strict_weak -> StronglySorted (fun a b => lt b a = false) (sort_with lt l).
  Proof. intros T. induction l as [|x l IH]; cbn [sort_with fold_right]; [constructor|]. now apply insert_sorted_weak. Qed.
  Lemma sort_sorted l : strict_total -> StronglySorted (fun a b => lt b a = false) (sort_with lt l).
  Proof. intros T. apply sort_sorted_weak, strict_total_weak, T. Qed.
End Sorting.

Section OutputObject.
  Context {S V W : Type} {ES : Eqb S} {EV : Eqb V} {EW : Eqb W} {F : Num} {good : F -> Prop} {ON : OrdNum F good} {OO : OrdOpp F good}.
  Notation result := (result S V W F).
  Variable ltw : W -> W -> bool.
  Variable rnd : nat -> nat.
  Variable r : result.

  (** the fields that are to be shown: those asked for, or all if none is; accuracy needs known true values *)
  Definition shown (fields : option (list field)) (sup : option (dict V W)) (f : field) : Prop :=
    match fields with None | Some [] => True | Some l => In f l end /\ (f = FAccuracy -> sup <> None).
  (** what each field holds *)
  Definition holds (sup : option (dict V W)) (f : field) (v : outval S V W F) : Prop :=
    match f with
    | FTime => v = VTime (r_time r)
    | FIterations => v = VIterations (r_iterations r)
    | FTrust => v = VTrust (r_trust r)
    | FBelief => v = VBelief (r_belief r)
    | FTrustStats => exists m s, get_trust_stats r = (m, s) /\ v = VTrustStats m s
    | FBeliefStats => v = VBeliefStats (get_belief_stats r)
    | FAccuracy => exists values, sup = Some values /\ v = VAccuracy (match get_accuracy rnd values r with Ok a => Some a | Err _ => None end)
    | FMostBelieved => exists d, v = VMostBelieved d /\ forall x,
        match dget (r_belief r) x with
        | Some b => exists l, dget d x = Some l /\ Permutation l (argmax b) /\ (strict_total ltw -> StronglySorted (fun a b => ltw b a = false) l)
        | None => dget d x = None
        end
    end.
  Hypothesis P : proper_beliefs (good := good) r.
  Lemma most_believed_loop_ok vars acc : (forall x, In x vars -> In x (dkeys (r_belief r))) -> exists d, most_believed_loop ltw r vars acc = Ok d /\
    forall x, dget d x = if mem x vars then Some (sort_with ltw (top r x)) else dget acc x.
  Proof.
    revert acc. induction vars as [|y vars IH]; intros acc H; cbn [most_believed_loop]; [eexists; split; reflexivity|].
    destruct (dget (r_belief r) y) as [b|] eqn:E; [|apply dget_None in E; exfalso; apply E, H; now left]. destruct (top_spec r P y b E) as [-> _]. cbn [bind].
    destruct (IH (dset acc y (sort_with ltw (top r y)))) as (d & -> & Hd); [intros x Hx; apply H; now right|]. exists d. split; [reflexivity|]. intros x. rewrite Hd, dget_dset. unfold mem. cbn [existsb]. fold (mem x vars).
    destruct (beq_spec x y) as [->|]; cbn [orb]; [now destruct (mem y vars)|reflexivity].
  Qed.
  Lemma output_field_ok sup f : exists o, output_field ltw rnd r sup f = Ok o /\ match o with None => f = FAccuracy /\ sup = None | Some v => (f = FAccuracy -> sup <> None) /\ holds sup f v end.
  Proof.
    destruct f; cbn [output_field holds].
    - destruct sup as [values|]; [|eexists; split; [reflexivity|split; reflexivity]].
      assert (C : (exists a, get_accuracy rnd values r = Ok a) \/ get_accuracy rnd values r = Err NoTrueValues \/ get_accuracy rnd values r = Err NoChoice).
      { destruct values as [|p l] eqn:Ev; [right; left; reflexivity|]. destruct (total r (p :: l)) as [|t] eqn:T.
        - right. right. apply (C13_no_choice r (p :: l) P). split; [discriminate|exact T].
        - left. destruct (C13_accuracy r (p :: l) P rnd) as (n & E & _); [lia|]. eauto. }
      destruct C as [[a E]|[E|E]]; rewrite E; (eexists; split; [reflexivity|]; split; [intros _; discriminate|]; exists values; rewrite E; split; reflexivity).
    - eexists. split; [reflexivity|]. split; [discriminate|reflexivity].
    - eexists. split; [reflexivity|]. split; [discriminate|reflexivity].
    - eexists. split; [reflexivity|]. split; [discriminate|reflexivity].
    - destruct (most_believed_loop_ok (dkeys (r_belief r)) []) as (d & -> & Hd); [auto|]. cbn [bind]. eexists. split; [reflexivity|]. split; [discriminate|]. exists d. split; [reflexivity|]. intros x. rewrite Hd.
      destruct (dget (r_belief r) x) as [b|] eqn:E.
      + assert (M : mem x (dkeys (r_belief r)) = true) by (apply mem_In; now apply (dget_dkeys _ _ b)). rewrite M. eexists. split; [reflexivity|]. unfold top. rewrite E. split; [apply sort_perm|apply sort_sorted].
      + apply dget_None, mem_false in E. now rewrite E.
    - eexists. split; [reflexivity|]. split; [discriminate|reflexivity].
    - eexists. split; [reflexivity|]. split; [discriminate|reflexivity].
    - destruct (get_trust_stats r) as [m s]. eexists. split; [reflexivity|]. split; [discriminate|]. exists m, s. auto.
  Qed.
  (** C46: exactly the fields that are to be shown, each with the quantity it names *)
  Theorem C46_output fields sup : exists out, get_output_obj ltw rnd r fields sup = Ok out /\ NoDup (dkeys out) /\
    forall f, match dget out f with Some v => shown fields sup f /\ holds sup f v | None => ~ shown fields sup f end.
  Proof.
    assert (G : forall l out0, NoDup (dkeys out0) -> (sup = None -> dget out0 FAccuracy = None) -> exists out, output_loop ltw rnd r sup l out0 = Ok out /\ NoDup (dkeys out) /\
        forall f, match dget out f with Some v => dget out0 f = Some v /\ ~ In f l \/ In f l /\ (f = FAccuracy -> sup <> None) /\ holds sup f v | None => dget out0 f = None /\ ~ (In f l /\ (f = FAccuracy -> sup <> None)) end).
    { induction l as [|g l IH]; intros out0 ND HA; cbn [output_loop].
      - exists out0. split; [reflexivity|]. split; [exact ND|]. intros f. destruct (dget out0 f); cbn; tauto.
      - destruct (output_field_ok sup g) as (o & -> & Ho). cbn [bind]. destruct o as [v|].
        + destruct (IH (dset out0 g v)) as (out & -> & NDo & Hout); [now apply dset_NoDup|intros Hs; rewrite dget_dset; destruct (beq_spec FAccuracy g) as [<-|]; [destruct Ho as [Ho _]; exfalso; now apply Ho|auto]|]. exists out. split; [reflexivity|]. split; [exact NDo|]. intros f. specialize (Hout f). rewrite dget_dset in Hout.
          cbn [In]. destruct (beq_spec f g) as [Efg|Ne]; [rewrite Efg in *; destruct (dget out g) as [v'|]|destruct (dget out f) as [v'|]].
          * destruct Hout as [[Ev Hn]|Hout]; [injection Ev as <-|]; tauto.
          * destruct Hout as [Hout _]. discriminate.
          * assert (g <> f) by congruence. tauto.
          * assert (g <> f) by congruence. tauto.
        + destruct Ho as [-> Hs]. destruct (IH out0 ND HA) as (out & -> & NDo & Hout). exists out. split; [reflexivity|]. split; [exact NDo|]. intros f. specialize (Hout f). cbn [In].
          destruct (dget out f) as [v|].
          * destruct Hout as [[E Hn]|Hout]; [|tauto]. destruct (beq_spec f FAccuracy) as [->|Ne]; [|left; split; [exact E|]; intros [H|H]; [congruence|contradiction]].
            rewrite (HA Hs) in E. discriminate.
          * destruct Hout as [E Hn]. split; [exact E|]. intros [[<-|H] H2]; [now apply H2|tauto]. }
    set (l := match fields with Some (f :: fs) => f :: fs | _ => all_fields end). destruct (G l []) as (out & E & ND & Hout); [constructor|reflexivity|]. exists out. split; [exact E|]. split; [exact ND|].
    assert (Hl : forall f, In f l <-> match fields with None | Some [] => True | Some l => In f l end) by (intros f; unfold l; destruct fields as [[|g fs]|]; [| |]; try reflexivity; destruct f; cbn; tauto).
    intros f. specialize (Hout f). specialize (Hl f). unfold shown. destruct (dget out f) as [v|]; [destruct Hout as [[Hout _]|Hout]; [discriminate|]|]; tauto.
  Qed.
End OutputObject.

(** * Non-vacuity: the result of AccExamples, asked for two fields and for all *)
Module OutputExamples.
  Import AccExamples.
  Example two_fields : exists out, get_output_obj Nat.ltb (fun _ => 0%nat) r (Some [FMostBelieved; FAccuracy]) None = Ok out /\
    (exists v, dget out FMostBelieved = Some v) /\ dget out FAccuracy = None /\ dget out FTrust = None.
  Proof.
    destruct (C46_output (good := fun x : XR => x <> NaN) Nat.ltb (fun _ => 0%nat) r proper (Some [FMostBelieved; FAccuracy]) None) as (out & E & _ & H). exists out. split; [exact E|].
    split; [|split].
    - specialize (H FMostBelieved). destruct (dget out FMostBelieved); [eauto|]. exfalso. apply H. split; [now left|discriminate].
    - specialize (H FAccuracy). destruct (dget out FAccuracy); [|reflexivity]. destruct H as [[_ H] _]. exfalso. now apply H.
    - specialize (H FTrust). destruct (dget out FTrust); [|reflexivity]. destruct H as [[H _] _]. cbn in H. intuition discriminate.
  Qed.
  Example nat_order : strict_total Nat.ltb.
  Proof.
    split; [|split].
    - intros x. apply Nat.ltb_irrefl.
    - intros x y z. rewrite !Nat.ltb_lt. lia.
    - intros x y. rewrite !Nat.ltb_lt. lia.
  Qed.
End OutputExamples.
