(** C99 in IEEE doubles: majority voting is monotone, PooledInvestment is not. *)
From Coq Require Import Reals Lra.
From Flocq Require Import Core IEEE754.BinarySingleNaN.
From Verif Require Import Base Num Sparse Spec SpecAlg Dataset DatasetProofs DatasetRep Iterators Algorithms Driver Rounds
  AlgRep AlgRounds PropsData PropsIter PropsRun PropsAlg Float PropsFloat PropsVote64 PropsTF64 PropsAccuracy PropsAvlog64 PropsCrh64 PropsInvest64 PropsInvestNaN.

Section Voting.
  Context {S V W : Type} {ES : Eqb S} {EV : Eqb V} {EW : Eqb W}.
  Variable L : libm.
  Notation F := (B64 L).
  Notation data := (dataset S V W F).
  Lemma votes_snoc (ts : list (S * V * W)) s x v : ~ In (s, x) (sv_pairs ts) ->
    (length (supporters ts (x, v)) < length (supporters (ts ++ [(s, x, v)]) (x, v)))%nat /\
    forall e, e <> (x, v) -> length (supporters (ts ++ [(s, x, v)]) e) = length (supporters ts e).
  Proof.
    intros N. assert (ND : forall (l : list (S * V * W)) e, NoDup (supporters l e)) by (intros; apply NoDup_filter, distinct_NoDup).
    assert (Sy : forall s' e, says (ts ++ [(s, x, v)]) s' e = true <-> says ts s' e = true \/ (s' = s /\ e = (x, v))).
    { intros s' e. rewrite says_snoc. destruct (first_claim ts s' (fst e)) as [w|] eqn:E.
      - split; [tauto|]. intros [Q|(-> & ->)]; [exact Q|]. exfalso. apply N. cbn [fst] in E. apply first_claim_In in E. apply in_map_iff. now exists (s, x, w).
      - change (t_src (s, x, v)) with s. change (t_claim (s, x, v)) with (x, v). rewrite andb_true_iff, !beq_true. split; [intros Q; right; exact Q|]. intros [Q|Q]; [|exact Q]. exfalso. apply says_true in Q. congruence. }
    split.
    - assert (N1 : ~ In s (supporters ts (x, v))).
      { rewrite supporters_In. intros Q. apply says_true, first_claim_In in Q. apply N. apply in_map_iff. now exists (s, x, v). }
      assert (Q : (length (s :: supporters ts (x, v)) <= length (supporters (ts ++ [(s, x, v)]) (x, v)))%nat).
      { apply NoDup_incl_length; [constructor; auto|]. intros s' [<-|Hs]; apply supporters_In, Sy. { right; auto. } left. now apply supporters_In. }
      cbn in Q. lia.
    - intros e Ne. assert (Q : forall s', In s' (supporters (ts ++ [(s, x, v)]) e) <-> In s' (supporters ts e)) by (intros s'; rewrite !supporters_In, Sy; intuition).
      assert (P : forall l m : list S, NoDup l -> (forall x, In x l -> In x m) -> (length l <= length m)%nat) by (intros l m D Y; now apply NoDup_incl_length).
      pose proof (P _ _ (ND _ e) (fun s => proj1 (Q s))). pose proof (P _ _ (ND ts e) (fun s => proj2 (Q s))). lia.
  Qed.
  (** One more vote for a claim that is believed at least as much as another puts it strictly before that one; and in any case it does not
      change which of two other claims is before the other. *)
  Theorem C99_voting b f b' f' (ts : list (S * V * W)) s x v (d d' : data) clock clock' r r' :
    build (F:=F) b f ts = Ok d -> build (F:=F) b' f' (ts ++ [(s, x, v)]) = Ok d' -> ~ In (s, x) (sv_pairs ts) ->
    (Z.of_nat (length (sources (ts ++ [(s, x, v)]))) < 2 ^ 53)%Z ->
    voting_run (F:=F) clock d = Ok r -> voting_run (F:=F) clock' d' = Ok r' ->
    (forall e u w u' w', e <> (x, v) -> belief_of r (x, v) = Some u -> belief_of r e = Some w -> belief_of r' (x, v) = Some u' -> belief_of r' e = Some w' ->
      Bltb u w = false -> Bltb w' u' = true) /\
    (forall e g u w u' w', e <> (x, v) -> g <> (x, v) -> belief_of r e = Some u -> belief_of r g = Some w -> belief_of r' e = Some u' -> belief_of r' g = Some w' ->
      Bltb u' w' = Bltb u w).
  Proof.
    intros Hb Hb' N Sm' Hr Hr'.
    assert (Sm : (Z.of_nat (length (sources ts)) < 2 ^ 53)%Z).
    { assert (Q : (length (sources ts) <= length (sources (ts ++ [(s, x, v)])))%nat); [|lia]. apply NoDup_incl_length; [apply distinct_NoDup|]. intros y Hy. apply sources_In in Hy. destruct Hy as (x' & v' & Hy).
      apply sources_In. exists x', v'. apply in_app_iff. now left. }
    destruct (votes_snoc ts s x v N) as (V1 & V2).
    pose proof (fun c c' v v' => C63_no_false_ties L b f ts d Hb Sm clock r c c' v v' Hr) as T. pose proof (fun c c' v v' => C63_no_false_ties L b' f' _ d' Hb' Sm' clock' r' c c' v v' Hr') as T'.
    split.
    - intros e u w u' w' Ne H1 H2 H1' H2' Nl. apply (proj1 (T' _ _ _ _ H2' H1')). rewrite (V2 e Ne). destruct (T _ _ _ _ H1 H2) as (A & _).
      assert (~ (length (supporters ts (x, v)) < length (supporters ts e))%nat) by (intros Q; apply A in Q; congruence). lia.
    - intros e g u w u' w' Ne Ng H1 H2 H1' H2'. destruct (T _ _ _ _ H1 H2) as (A & _). destruct (T' _ _ _ _ H1' H2') as (A' & _). rewrite (V2 e Ne), (V2 g Ng) in A'.
      destruct (Bltb u w), (Bltb u' w'); try reflexivity; exfalso; [assert (Q : true = true) by reflexivity; apply A, A' in Q|assert (Q : true = true) by reflexivity; apply A', A in Q]; discriminate.
  Qed.
End Voting.

(** Two variables, three sources; all values of variable 1 have one vote. *)
Definition three_way : list (nat * nat * nat) := [(0,0,2); (0,1,2); (1,0,1); (1,1,0); (2,0,2); (2,1,1)]%nat.
(** A fourth source agrees with source 2 about variable 1. *)
Definition seconded : list (nat * nat * nat) := three_way ++ [(3,1,1)]%nat.

Section Pooled.
  Variables (ln exp : b64 -> b64) (pw : b64 -> b64 -> b64).
  Notation L := (squaring ln exp pw).
  Notation F := (B64 L).
  Notation data := (dataset nat nat nat F).
  Notation two := (ofZ64 2 : F).
  (* the beliefs in the claims 1=1 and 1=0 after k rounds are comparable by cmp *)
  Definition look (bd : dict nat (dict nat F)) (cmp : b64 -> b64 -> bool) : bool :=
    match dget bd 1%nat with Some m => match dget m 1%nat, dget m 0%nat with Some u, Some w => cmp u w | _, _ => false end | None => false end.
  Definition checks (ts : list (nat * nat * nat)) (a : alg F) (p : prior) (k : nat) (cmp : b64 -> b64 -> bool) : bool :=
    match build (F:=F) false None ts with
    | Ok d => match init (F:=F) a p d with Some x0 => match go ln exp pw a d x0 k with Some y => look (bdict (F:=F) ts (snd y)) cmp | None => false end | None => false end
    | Err _ => false end.
  Lemma checks_run ts a p k cmp : checks ts a p k cmp = true -> ts <> [] -> a <> UnboundedSums -> p <> BadPrior -> exists d, build (F:=F) false None ts = Ok d /\
    forall clock fuel st lg, (k < fuel)%nat ->
      exists r u w, fst (run (F:=F) clock fuel (AObj a p (IFixed (Z.of_nat k) st) lg) d) = Ok r /\ r_iterations r = Some k /\
        belief_of r (1, 1)%nat = Some u /\ belief_of r (1, 0)%nat = Some w /\ cmp u w = true.
  Proof.
    intros H NE Ha Hp. destruct (build (F:=F) false None ts) as [d|e] eqn:E0; [|exfalso; unfold checks in H; rewrite E0 in H; discriminate].
    exists d. split; [reflexivity|]. intros clock fuel st lg Hf.
    destruct (C28_fixed_returns false None ts d E0 clock fuel a p (Z.of_nat k) st lg NE Ha Hp ltac:(lia)) as (r & Hr).
    destruct (run (F:=F) clock fuel (AObj a p (IFixed (Z.of_nat k) st) lg) d) as [q o'] eqn:Er. cbn [fst] in Hr. subst q. exists r.
    apply (run_cases false None ts d E0) in Er. destruct Er as (_ & x0 & k' & it' & E1 & El & x & Ef & ->). cbn [r_iterations].
    unfold checks in H. rewrite E0, E1 in H. destruct (go ln exp pw a d x0 k) as [y|] eqn:Eg; [|discriminate]. destruct (go_scores ln exp pw a d x0 k y Eg) as (Es & Hs).
    apply (final_ok (F:=F) a it' _ x) in Ef; [|exact Ha]. subst x.
    assert (Ek : k' = k).
    { cbn [reset] in El. assert (G : forall fuel j k' it', (j <= k)%nat -> it_loop (F:=F) (cmp1 (F:=F) a d x0) (cmp2 (F:=F) a d x0) (stops (F:=F) a d x0) fuel (IFixed (Z.of_nat k) j) j = ((Ok tt, k'), it') -> k' = k).
      { clear - Hs. induction fuel as [|fu IH]; intros j k' it' Hj E; [discriminate|]. cbn [it_loop finished] in E. destruct (Z.leb_spec (Z.of_nat k) (Z.of_nat j)) as [Q|Q].
        - injection E as <- _. lia.
        - rewrite (Hs j ltac:(lia)) in E. cbn [compare] in E. apply IH in E; [exact E|lia]. }
      apply (G fuel 0%nat k' it'); [lia|exact El]. }
    subst k'. unfold look in H. assert (Eb : forall bd, bd = bdict (F:=F) ts (snd y) -> exists u w, match dget bd 1%nat with Some m => dget m 1%nat | None => None end = Some u /\ match dget bd 1%nat with Some m => dget m 0%nat | None => None end = Some w /\ cmp u w = true).
    { intros bd ->. destruct (dget (bdict (F:=F) ts (snd y)) 1%nat) as [mm|]; [|discriminate]. destruct (dget mm 1%nat) as [u|]; [|discriminate]. destruct (dget mm 0%nat) as [w|]; [|discriminate]. eauto. }
    destruct (Eb _ (f_equal (fun y => bdict (F:=F) ts (snd y)) Es)) as (u & w & Eu & Ew & Ec). exists u, w. split; [reflexivity|]. split; [reflexivity|]. split; [exact Eu|]. split; [exact Ew|exact Ec].
  Qed.
  (** PooledInvestment(g=2), default priors and the default ten rounds.  On three_way the claims 1=1 and 1=2 are believed more than 1=0; when a
      further source makes the claim 1=1, it ends up below 1=0. *)
  Theorem C99_pooled_not_monotone : exists d d', build (F:=F) false None three_way = Ok d /\ build (F:=F) false None seconded = Ok d' /\
    forall clock fuel, (10 < fuel)%nat ->
      exists r r' u w u' w', fst (run (F:=F) clock fuel (mk_obj (F:=F) (mk_pooled (F:=F) (Some two)) None None) d) = Ok r /\
        fst (run (F:=F) clock fuel (mk_obj (F:=F) (mk_pooled (F:=F) (Some two)) None None) d') = Ok r' /\
        belief_of r (1, 1)%nat = Some u /\ belief_of r (1, 0)%nat = Some w /\ Bltb w u = true /\
        belief_of r' (1, 1)%nat = Some u' /\ belief_of r' (1, 0)%nat = Some w' /\ Bltb u' w' = true.
  Proof.
    destruct (checks_run three_way (mk_pooled (F:=F) (Some two)) UNIFORM 10 (fun u w => Bltb w u)) as (d & E & Hd); [vm_compute; reflexivity|discriminate|discriminate|discriminate|].
    destruct (checks_run seconded (mk_pooled (F:=F) (Some two)) UNIFORM 10 (fun u w => Bltb u w)) as (d' & E' & Hd'); [vm_compute; reflexivity|discriminate|discriminate|discriminate|].
    exists d, d'. split; [exact E|]. split; [exact E'|]. intros clock fuel Hf.
    destruct (Hd clock fuel 0%nat None Hf) as (r & u & w & Er & _ & Eu & Ew & C). destruct (Hd' clock fuel 0%nat None Hf) as (r' & u' & w' & Er' & _ & Eu' & Ew' & C').
    exists r, r', u, w, u', w'. split; [exact Er|]. split; [exact Er'|]. split; [exact Eu|]. split; [exact Ew|]. split; [exact C|]. split; [exact Eu'|]. split; [exact Ew'|exact C'].
  Qed.
End Pooled.

(** Non-vacuity of C99_voting: a vote for 2=20, which ties with 2=21 before, in the example of C63 *)
Module Votes64Examples.
  Definition more := VoteExamples.ts ++ [(4,2,20)]%nat.
  Example votes : exists d d' r r', build (F:=B64 FloatExamples.lm) false None VoteExamples.ts = Ok d /\ build (F:=B64 FloatExamples.lm) false None more = Ok d' /\
    voting_run (F:=B64 FloatExamples.lm) (fun _ => ofZ64 0) d = Ok r /\ voting_run (F:=B64 FloatExamples.lm) (fun _ => ofZ64 0) d' = Ok r' /\
    ~ In (4, 2)%nat (sv_pairs VoteExamples.ts) /\ (Z.of_nat (length (sources more)) < 2 ^ 53)%Z.
  Proof.
    destruct VoteExamples.runs as (d & r & E & Hr & _).
    destruct (FloatExamples.strict_builds64 more) as [d' E']; [unfold more, VoteExamples.ts, sv_pairs; cbn; repeat constructor; cbn; intuition congruence|].
    destruct (C34_voting_float FloatExamples.lm false None more d' E') with (clock := fun _ : nat => ofZ64 0) as (r' & Hr' & _); [cbn; lia|cbn; lia|discriminate|].
    exists d, d', r, r'. split; [exact E|]. split; [exact E'|]. split; [exact Hr|]. split; [exact Hr'|]. split; [cbn; intuition congruence|vm_compute; reflexivity].
  Qed.
End Votes64Examples.
