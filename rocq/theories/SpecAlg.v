(** The published recurrences of the algorithms, at the level of labels: scores are real-valued functions of sources and
    claims, sums range over "the claims of a source" and "the supporters of a claim".  No ids, vectors or matrices. *)
From Coq Require Import Reals Lra.
From Verif Require Import Base Num Spec Iterators Algorithms.
Local Open Scope R_scope.

Section AlgSpec.
  Context {S V W : Type} {ES : Eqb S} {EV : Eqb V} {EW : Eqb W}.
  Notation triple := (S * V * W)%type.
  Notation claim := (V * W)%type.
  Variable ts : list triple.

  (** trust of every source, belief in every claim *)
  Definition rscores : Type := (S -> R) * (claim -> R).

  Definition total_belief (b : claim -> R) (s : S) : R := rsum b (claims_of ts s).
  Definition total_trust (t : S -> R) (c : claim) : R := rsum t (supporters ts c).
  Definition n_claims (s : S) : R := INR (length (claims_of ts s)).
  Definition n_supporters (c : claim) : R := INR (length (supporters ts c)).
  (** divided by the maximum *)
  Definition by_max {A} (l : list A) (f : A -> R) (x : A) : R := f x / rmax f l.

  (** Prior beliefs (None: not a valid choice) *)
  Definition prior_spec (p : prior) : option (claim -> R) :=
    match p with
    | FIXED => Some (fun _ => 1/2)
    | COUNT => Some n_supporters
    | VOTED => Some (fun c => n_supporters c / rsum n_supporters (rivals ts c))
    | UNIFORM => Some (fun c => 1 / INR (length (rivals ts c)))
    | BadPrior => None
    end.

  (** Sums: trust of a source = sum of the beliefs of its claims; belief of a claim = sum of the trusts of its sources *)
  Definition sums_step (x : rscores) : rscores :=
    let t := total_belief (snd x) in (by_max (sources ts) t, by_max (claims ts) (total_trust t)).

  (** AverageLog: the average belief of its claims, times the logarithm of their number *)
  Definition avlog_step (x : rscores) : rscores :=
    let t s := ln (n_claims s) * (total_belief (snd x) s / n_claims s) in
    (by_max (sources ts) t, by_max (claims ts) (total_trust t)).

  (** Investment: a source divides its trust equally between its claims; it gets back, from each of them, the part of
      the claim's belief corresponding to its part of the claim's investment *)
  Definition invests (t : S -> R) (s : S) : R := t s / n_claims s.
  Definition invested (t : S -> R) (c : claim) : R := total_trust (invests t) c.
  Definition returned (x : rscores) (s : S) : R :=
    rsum (fun c => snd x c * (invests (fst x) s / invested (fst x) c)) (claims_of ts s).
  Definition inv_step (g : R) (x : rscores) : rscores :=
    let t := returned x in
    (by_max (sources ts) t, by_max (claims ts) (fun c => Rpower (invested t c) g)).

  (** PooledInvestment: the investment in a claim, scaled by its share of the (non-linear) total of its variable *)
  Definition pooled_step (g : R) (x : rscores) : rscores :=
    let t := returned x in
    let h c := Rpower (invested t c) g in
    (by_max (sources ts) t, by_max (claims ts) (fun c => invested t c * (h c / rsum h (rivals ts c)))).

  (** TruthFinder; [f x w w'] is the implication of the claim x=w for the claim x=w', if given *)
  Definition implication (f : option (V -> W -> W -> option R)) (c c' : claim) : R :=
    match f with
    | None => 0
    | Some f => if beq (fst c) (fst c') && negb (beq c c')
                then match f (fst c) (snd c) (snd c') with Some q => q | None => 0 end
                else 0
    end.
  Definition tf_step (f : option (V -> W -> W -> option R)) (rho gamma : R) (x : rscores) : rscores :=
    let tau s := - ln (1 - fst x s) in
    let conf c := total_trust tau c + rho * rsum (fun c' => implication f c' c * total_trust tau c') (claims ts) in
    let b c := 1 / (1 + exp (- (gamma * conf c))) in
    ((fun s => total_belief b s / n_claims s), b).

  (** CRH *)
  Definition crh_loss_spec (b : claim -> R) (s : S) : R :=
    rsum (fun c => rsum (fun c' => (b c' - if beq c c' then 1 else 0) ^ 2) (rivals ts c)) (claims_of ts s).
  Definition crh_step (eps : R) (x : rscores) : rscores :=
    let alpha s := eps + crh_loss_spec (snd x) s in
    let t s := eps - ln (alpha s / rsum alpha (sources ts)) in
    (t, (fun c => total_trust t c / rsum t (sources ts))).

  (** the plain recurrence of Sums, without any division *)
  Definition plain_step (x : rscores) : rscores :=
    let t := total_belief (snd x) in (t, total_trust t).

  (** initial scores and k rounds *)
  Fixpoint rounds (step : rscores -> rscores) (x : rscores) (k : nat) : rscores :=
    match k with O => x | Datatypes.S n => step (rounds step x n) end.
  Definition start (a : alg XR) (p : prior) : option rscores :=
    match a with
    | TruthFinder _ _ (Fin t0) => Some ((fun _ => t0), (fun _ => 0))
    | TruthFinder _ _ _ => None
    | CRH _ => Some ((fun _ => 0), (fun c => n_supporters c / INR (length (sources ts))))
    | Investment _ | PooledInvestment _ => option_map (fun b => ((fun _ => 1), b)) (prior_spec p)
    | _ => option_map (fun b => ((fun _ => 0), b)) (prior_spec p)
    end.
End AlgSpec.

(** ** Reading a result *)
Section Reading.
  Context {S V W : Type} {ES : Eqb S} {EV : Eqb V} {EW : Eqb W}.
  (** the trust score of a source, the belief score of a claim; None if the result has no such entry *)
  Definition trust_of {T} (r : result S V W T) (s : S) : option T := dget (r_trust r) s.
  Definition belief_of {T} (r : result S V W T) (c : V * W) : option T :=
    match dget (r_belief r) (fst c) with Some m => dget m (snd c) | None => None end.
  (** the result holds exactly these scores: one per source, one per claim, nothing else *)
  Definition reports {T} (ts : list (S * V * W)) (r : result S V W T) (t : S -> T) (b : V * W -> T) : Prop :=
    (forall s, trust_of r s = if mem s (sources ts) then Some (t s) else None) /\
    (forall c, belief_of r c = if mem c (claims ts) then Some (b c) else None) /\
    NoDup (dkeys (r_trust r)) /\ NoDup (dkeys (r_belief r)) /\
    (forall x m, dget (r_belief r) x = Some m -> NoDup (dkeys m)).
  Definition reports_real (ts : list (S * V * W)) (r : result S V W xr) (x : rscores (S:=S) (V:=V) (W:=W)) : Prop :=
    reports ts r (fun s => Fin (fst x s)) (fun c => Fin (snd x c)).
End Reading.
