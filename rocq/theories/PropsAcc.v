(** Property theorem C13 (accuracy). *)
From Coq Require Import Reals Lra.
From Verif Require Import Base Num Spec SpecAlg Dataset Iterators Algorithms Ranking Results PropsResult PyStr Matrix Supervised Float.

Section Accuracy.
  Context {S V W : Type} {ES : Eqb S} {EV : Eqb V} {EW : Eqb W} {F : Num} {good : F -> Prop} {ON : OrdNum F good} {OO : OrdOpp F good}.
  Variable r : result S V W F.
  Variable values : dict V W.                 (* the known true values *)
  (** what every result of an algorithm satisfies: a value for every variable, scores that are numbers *)
  Definition proper_beliefs : Prop := forall x b, dget (r_belief r) x = Some b -> b <> [] /\ forall w q, In (w, q) b -> good q.

  (** the most believed values of a variable *)
  Definition top (x : V) : list W := match dget (r_belief r) x with Some b => argmax b | None => [] end.
  (** known variables for which more (or fewer) than one value was claimed *)
  Definition contested (p : V * W) : bool := match dget (r_belief r) (fst p) with Some b => negb (Nat.eqb (length b) 1) | None => false end.
  Definition total : nat := length (filter contested values).
  (** right for sure: the true value is the only most believed one;  possibly right: it is one of them *)
  Definition surely (p : V * W) : bool := contested p && beq (top (fst p)) [snd p].
  Definition possibly (p : V * W) : bool := contested p && mem (snd p) (top (fst p)).

  Hypothesis P : proper_beliefs.
  Lemma top_spec x b : dget (r_belief r) x = Some b -> get_most_believed_values r x = Ok (top x) /\ top x <> [].
  Proof.
    intros E. destruct (P x b E) as [NE G]. unfold top. rewrite E. split; [now apply C17_most_believed|].
    destruct (max_exists b NE) as (p & Hp & Mp); [intros [w q] Hin; exact (G w q Hin)|]. intros E'. assert (In (fst p) (argmax b)); [|rewrite E' in *; contradiction]. apply in_map, filter_In. auto.
  Qed.
  Lemma choice_In rnd k (l : list W) : l <> [] -> exists w, random_choice rnd k l = Ok w /\ In w l.
  Proof.
    intros NE. unfold random_choice. assert (L : rnd k mod length l < length l) by (apply Nat.mod_upper_bound; destruct l; [congruence|discriminate]).
    destruct (nth_error l (rnd k mod length l)) as [w|] eqn:E; [exists w; split; [reflexivity|now apply nth_error_In in E]|]. apply nth_error_None in E. lia.
  Qed.
  Lemma acc_loop_spec rnd items t c : exists n, acc_loop rnd r items t c = Ok (t + length (filter contested items), c + n) /\
    length (filter surely items) <= n <= length (filter possibly items).
  Proof.
    revert t c. induction items as [|[x v] items IH]; intros t c; [exists 0; cbn; rewrite !Nat.add_0_r; auto|].
    cbn [acc_loop filter]. change (surely (x, v)) with (contested (x, v) && beq (top x) [v]). change (possibly (x, v)) with (contested (x, v) && mem v (top x)).
    change (contested (x, v)) with (match dget (r_belief r) x with Some b => negb (Nat.eqb (length b) 1) | None => false end). destruct (dget (r_belief r) x) as [b|] eqn:E; [|cbn [andb]; apply IH].
    destruct (Nat.eqb (length b) 1); cbn [negb andb]; [apply IH|]. destruct (top_spec x b E) as [E1 NE]. rewrite E1. cbn [bind].
    destruct (choice_In rnd t (top x) NE) as (w & -> & Hw). cbn [bind length].
    destruct (IH (t + 1) (if beq w v then c + 1 else c)) as (n & -> & Hn). exists ((if beq w v then 1 else 0) + n). split; [f_equal; f_equal; destruct (beq w v); lia|].
    destruct (beq_spec w v) as [->|N].
    - apply mem_In in Hw. rewrite Hw. destruct (beq (top x) [v]); cbn [length]; lia.
    - assert (Q : beq (top x) [v] = false) by (apply beq_neq; intros Q; rewrite Q in Hw; destruct Hw as [Hw|[]]; congruence). rewrite Q. destruct (mem v (top x)); cbn [length]; lia.
  Qed.
  (** for every outcome of the random choices: the number of right variables divided by the number of contested ones *)
  Theorem C13_accuracy rnd : 0 < total -> exists n, get_accuracy rnd values r = Ok (n_div (n_ofZ (Z.of_nat n)) (n_ofZ (Z.of_nat total))) /\
    length (filter surely values) <= n <= length (filter possibly values).
  Proof.
    intros T. unfold get_accuracy, accuracy_counts. destruct (acc_loop_spec rnd values 0 0) as (n & E & Hn). exists n. split; [|exact Hn].
    unfold total in *. destruct values as [|p l]; [cbn in T; lia|]. rewrite E. cbn [bind plus].
    destruct (Nat.eqb_spec (length (filter contested (p :: l))) 0) as [Z|_]; [lia|]. reflexivity.
  Qed.
  Theorem C13_bounds : length (filter surely values) <= length (filter possibly values) <= total.
  Proof.
    unfold total. clear P. induction values as [|p l IH]; [cbn; lia|]. cbn [filter]. change (surely p) with (contested p && beq (top (fst p)) [snd p]).
    change (possibly p) with (contested p && mem (snd p) (top (fst p))). destruct (contested p); cbn [andb]; [|exact IH].
    destruct (beq_spec (top (fst p)) [snd p]) as [->|N].
    - assert (M : mem (snd p) [snd p] = true) by (apply mem_In; now left). rewrite M. cbn [length]. lia.
    - destruct (mem _ _); cbn [length]; lia.
  Qed.
  (** no ties: the outcome does not depend on the random choices *)
  Theorem C13_deterministic rnd rnd' : (forall x, length (top x) <= 1) -> get_accuracy rnd values r = get_accuracy rnd' values r.
  Proof.
    intros One. unfold get_accuracy, accuracy_counts. destruct (acc_loop_spec rnd values 0 0) as (n & E & Hn). destruct (acc_loop_spec rnd' values 0 0) as (n' & E' & Hn').
    rewrite E, E'. assert (Eq : forall p, surely p = possibly p).
    { intros [x v]. unfold surely, possibly. f_equal. cbn [fst snd]. specialize (One x). destruct (top x) as [|w [|w' l]]; [reflexivity| |cbn in One; lia]. unfold mem. cbn. rewrite andb_true_r, orb_false_r. apply beq_sym. }
    rewrite (filter_ext _ _ Eq) in Hn, Hn'. assert (n = n') by lia. now subst.
  Qed.
  (** the two ValueErrors *)
  Theorem C13_no_true_values rnd : get_accuracy rnd values r = Err NoTrueValues <-> values = [].
  Proof.
    unfold get_accuracy, accuracy_counts. destruct (acc_loop_spec rnd values 0 0) as (n & E & _). destruct values as [|p l]; [split; reflexivity|]. rewrite E. cbn [bind].
    destruct (Nat.eqb _ 0); split; discriminate.
  Qed.
  Theorem C13_no_choice rnd : get_accuracy rnd values r = Err NoChoice <-> values <> [] /\ total = 0.
  Proof.
    unfold get_accuracy, accuracy_counts, total. destruct (acc_loop_spec rnd values 0 0) as (n & E & _). destruct values as [|p l]; [split; [discriminate|intros [H _]; congruence]|]. rewrite E. cbn [bind plus].
    destruct (Nat.eqb_spec (length (filter contested (p :: l))) 0); split; try discriminate; auto; [intros _; split; [discriminate|assumption]|intros [_ H]; contradiction].
  Qed.
End Accuracy.

(** in exact arithmetic it lies between 0 and 1 *)
Theorem C13_unit_interval {S V W : Type} {ES : Eqb S} {EV : Eqb V} {EW : Eqb W} (r : result S V W XR) values rnd q :
  proper_beliefs (good := fun x : XR => x <> NaN) r -> get_accuracy rnd values r = Ok q -> exists a, q = Fin a /\ (0 <= a <= 1)%R.
Proof.
  intros P E. destruct (total r values) as [|t] eqn:T.
  - exfalso. destruct values as [|p l]; [discriminate|]. assert (get_accuracy rnd (p :: l) r = Err NoChoice) by (apply (C13_no_choice r (p :: l) P); split; [discriminate|exact T]). congruence.
  - destruct (C13_accuracy r values P rnd) as (n & E' & Hn); [lia|]. rewrite E in E'. injection E' as ->. pose proof (C13_bounds r values) as B.
    set (N := Z.of_nat (total r values)). assert (HN : (0 < IZR N)%R) by (apply IZR_lt; unfold N; lia). exists (IZR (Z.of_nat n) / IZR N)%R.
    split; [apply xdiv_fin; lra|]. assert (H0 : (0 <= IZR (Z.of_nat n) <= IZR N)%R) by (split; apply IZR_le; unfold N; lia).
    split; [apply Rmult_le_pos; [lra|left; now apply Rinv_0_lt_compat]|]. apply (Rmult_le_reg_r (IZR N)); [exact HN|]. unfold Rdiv. rewrite Rmult_assoc, Rinv_l; lra.
Qed.

Module AccExamples.
  Local Open Scope R_scope.
  (** two contested variables: 7 has a tie between 4 and 6, 8 has 1 as its only most believed value; 9 is not contested *)
  Definition r : result nat nat nat XR :=
    Result [] [(7%nat, [(4%nat, Fin 1); (5%nat, Fin (1/4)); (6%nat, Fin 1)]); (8%nat, [(1%nat, Fin 1); (2%nat, Fin (1/4))]); (9%nat, [(0%nat, Fin 1)])] (Fin 0) (Some 3%nat).
  Example proper : proper_beliefs (good := fun x : XR => x <> NaN) r.
  Proof.
    intros x b. unfold r. cbn [r_belief dget]. destruct (beq_spec x 7%nat) as [->|_]; [intros [= <-]|destruct (beq_spec x 8%nat) as [->|_]; [intros [= <-]|destruct (beq_spec x 9%nat) as [->|_]; [intros [= <-]|discriminate]]];
      (split; [discriminate|]); cbn; intros w q H; repeat (destruct H as [H|H]; [injection H as <- <-; discriminate|]); contradiction.
  Qed.
  Definition truth : dict nat nat := [(7, 4); (8, 1); (9, 0)]%nat.
  Example counts : total r truth = 2%nat /\ length (filter (surely r) truth) = 1%nat /\ length (filter (possibly r) truth) = 2%nat.
  Proof.
    unfold total, surely, possibly, contested, top, argmax, is_max. cbn. rewrite !(rltb_false 1 1), !(rltb_false 1 (1/4)), !(rltb_true (1/4) 1) by lra. cbn. auto.
  Qed.
End AccExamples.
