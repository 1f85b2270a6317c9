(** Model of truthdiscovery/algorithm/*.py: the iterative algorithms and majority voting. *)
From Verif Require Import Base Num Sparse Spec Dataset Iterators.
Local Open Scope num_scope.

(** Result objects (output/result.py:10-26) *)
Record result (S V W T : Type) := Result {
  r_trust : dict S T;
  r_belief : dict V (dict W T);
  r_time : T;
  r_iterations : option nat
}.
Arguments Result {S V W T}. Arguments r_trust {S V W T}. Arguments r_belief {S V W T}.
Arguments r_time {S V W T}. Arguments r_iterations {S V W T}.

(** PriorBelief (base.py:12-22); [BadPrior] is any object that is not an item of the enumeration. *)
Inductive prior := FIXED | VOTED | COUNT | UNIFORM | BadPrior.

(** The algorithms with their own parameters. *)
Inductive alg (F : Type) :=
| Sums
| AverageLog
| Investment (g : F)
| PooledInvestment (g : F)
| TruthFinder (influence_param dampening_factor initial_trust : F)
| CRH (eps : F)
| UnboundedSums.
Arguments Sums {F}. Arguments AverageLog {F}. Arguments Investment {F}. Arguments PooledInvestment {F}.
Arguments TruthFinder {F}. Arguments CRH {F}. Arguments UnboundedSums {F}.

Section Algorithms.
  Context {S V W : Type} {ES : Eqb S} {EV : Eqb V} {EW : Eqb W} {F : Num}.
  Notation data := (dataset S V W F).
  Notation result := (result S V W F).

  (** Mutable attributes of an algorithm object while it runs: its iterator and its results log
      (None when logging is disabled); and the lines that a convergence iterator made with debug=True prints on stdout
      (the flag changes nothing else, so it is not part of the iterator). *)
  Record mst := MState { st_it : iterator F; st_log : option (list result); st_out : list (nat * F) }.
  (** Computations that can raise; the state survives an exception. *)
  Definition M (A : Type) : Type := mst -> res aerr A * mst.
  Definition ret {A} (a : A) : M A := fun st => (Ok a, st).
  Definition fail {A} (e : aerr) : M A := fun st => (Err e, st).
  Definition mbind {A B} (m : M A) (f : A -> M B) : M B :=
    fun st => match m st with (Ok a, st') => f a st' | (Err e, st') => (Err e, st') end.
  Notation "x <~ m ;;; k" := (mbind m (fun x => k)) (at level 61, m at next level, right associativity).
  Notation "' p <~ m ;;; k" := (mbind m (fun p => k)) (at level 61, p pattern, m at next level, right associativity).

  Definition finishedM : M bool := fun st => (finished (st_it st), st).
  Definition compareM (a b : vec F) : M unit := fun st =>
    let (r, it) := compare (st_it st) a b in
    (r, MState it (st_log st) (st_out st ++ match r with Ok _ => debug_line it | Err _ => [] end)).

  (** The clock: [clock k] is the value of the (k+1)-th call of time.time() since the run started; [clock 0] is
      start_time. *)
  Variable clock : nat -> F.

  (** BaseIterativeAlgorithm.log (base.py:152-164) *)
  Definition log (d : data) (trust belief : vec F) : M unit := fun st =>
    match st_log st with
    | None => (Ok tt, st)
    | Some l =>
        match get_source_trust_dict d trust, get_belief_dict d belief with
        | Some t, Some b =>
            (Ok tt, MState (st_it st) (Some (l ++ [Result t b (clock (Datatypes.S (length l)) - clock 0) (Some (it_count (st_it st)))])) (st_out st))
        | _, _ => (Err KeyErr, st)
        end
    end.

  (** while not self.iterator.finished(): body.  The body returns the new (trust, belief) and whether it did [break]. *)
  Fixpoint while_ {X} (fuel : nat) (body : X -> M (X * bool)) (x : X) : M X :=
    match fuel with
    | O => fail OutOfFuel
    | Datatypes.S n =>
        fin <~ finishedM ;;;
        if fin then ret x
        else ' (x', brk) <~ body x ;;; if (brk : bool) then ret x' else while_ n body x'
    end.

  (* v / max(v) with Python's builtin max *)
  Definition normalise (v : vec F) : M (vec F) :=
    match pymax v with Some m => ret (vdivs v m) | None => fail EmptySequence end.

  (** get_prior_beliefs (base.py:88-112) *)
  Definition source_counts (d : data) : vec F := mv (mtr (sc d)) (vones (num_sources d)).
  Definition get_prior_beliefs (p : prior) (d : data) : M (vec F) :=
    match p with
    | FIXED => ret (vfull (num_claims d) (lit 1 2))
    | VOTED => ret (vdiv (source_counts d) (mv (mut_ex d) (source_counts d)))
    | COUNT => ret (source_counts d)
    | UNIFORM => ret (sdivv 1 (mv (mut_ex d) (vones (num_claims d))))
    | BadPrior => fail InvalidPriorError
    end.

  (** Sums._run (sums.py:13-31) *)
  Definition sums_body (d : data) (x : vec F * vec F) : M ((vec F * vec F) * bool) :=
    let (trust, belief) := x in
    let new_trust := mv (sc d) belief in
    let belief := mv (mtr (sc d)) new_trust in
    new_trust <~ normalise new_trust ;;;
    belief <~ normalise belief ;;;
    _ <~ compareM trust new_trust ;;;
    let trust := new_trust in
    _ <~ log d trust belief ;;;
    ret ((trust, belief), false).
  Definition sums_run (fuel : nat) (p : prior) (d : data) : M (vec F * vec F) :=
    let trust := vzeros (num_sources d) in
    belief <~ get_prior_beliefs p d ;;;
    _ <~ log d trust belief ;;;
    while_ fuel (sums_body d) (trust, belief).

  (* data.sc @ np.ones((data.num_claims,)) *)
  Definition claim_counts (d : data) : vec F := mv (sc d) (vones (num_claims d)).

  (** AverageLog._run (average_log.py:13-40) *)
  Definition avlog_weights (d : data) : vec F := vdiv (map n_ln (claim_counts d)) (claim_counts d).
  Definition avlog_body (d : data) (x : vec F * vec F) : M ((vec F * vec F) * bool) :=
    let (trust, belief) := x in
    let new_trust := vmul (avlog_weights d) (mv (sc d) belief) in
    let belief := mv (mtr (sc d)) new_trust in
    new_trust <~ normalise new_trust ;;;
    belief <~ normalise belief ;;;
    _ <~ compareM new_trust trust ;;;
    let trust := new_trust in
    _ <~ log d trust belief ;;;
    ret ((trust, belief), false).
  Definition avlog_run (fuel : nat) (p : prior) (d : data) : M (vec F * vec F) :=
    let trust := vzeros (num_sources d) in
    belief <~ get_prior_beliefs p d ;;;
    _ <~ log d trust belief ;;;
    while_ fuel (avlog_body d) (trust, belief).

  (** Investment.update_trust (investment.py:28-45); None is EarlyFinishError *)
  Definition update_trust (old_trust claim_counts : vec F) (sc_mat : mat F) (belief : vec F) : option (vec F) :=
    let investment_amounts := vdiv old_trust claim_counts in
    let claim_investments := mv (mtr sc_mat) investment_amounts in
    if existsb (fun x => x =? 0) claim_investments then None
    else
      let m := mmulc sc_mat (sdivv 1 claim_investments) in
      Some (vmul investment_amounts (mv m belief)).

  (** Investment._run (investment.py:47-70) *)
  Definition inv_body (g : F) (d : data) (x : vec F * vec F) : M ((vec F * vec F) * bool) :=
    let (trust, belief) := x in
    match update_trust trust (claim_counts d) (sc d) belief with
    | None => ret ((trust, belief), true)
    | Some new_trust =>
        let belief := map (fun y => n_pow y g) (mv (mtr (sc d)) (vdiv new_trust (claim_counts d))) in
        new_trust <~ normalise new_trust ;;;
        belief <~ normalise belief ;;;
        _ <~ compareM new_trust trust ;;;
        let trust := new_trust in
        _ <~ log d trust belief ;;;
        ret ((trust, belief), false)
    end.
  Definition inv_run (g : F) (fuel : nat) (p : prior) (d : data) : M (vec F * vec F) :=
    let trust := vones (num_sources d) in
    belief <~ get_prior_beliefs p d ;;;
    _ <~ log d trust belief ;;;
    while_ fuel (inv_body g d) (trust, belief).

  (** PooledInvestment._run (pooled_investment.py:24-51) *)
  Definition pooled_body (g : F) (d : data) (x : vec F * vec F) : M ((vec F * vec F) * bool) :=
    let (trust, belief) := x in
    match update_trust trust (claim_counts d) (sc d) belief with
    | None => ret ((trust, belief), true)
    | Some new_trust =>
        let base_returns := mv (mtr (sc d)) (vdiv new_trust (claim_counts d)) in
        let returns := map (fun y => n_pow y g) base_returns in
        let belief := vmul base_returns (vdiv returns (mv (mut_ex d) returns)) in
        new_trust <~ normalise new_trust ;;;
        belief <~ normalise belief ;;;
        _ <~ compareM new_trust trust ;;;
        let trust := new_trust in
        _ <~ log d trust belief ;;;
        ret ((trust, belief), false)
    end.
  Definition pooled_run (g : F) (fuel : nat) (p : prior) (d : data) : M (vec F * vec F) :=
    let trust := vones (num_sources d) in
    belief <~ get_prior_beliefs p d ;;;
    _ <~ log d trust belief ;;;
    while_ fuel (pooled_body g d) (trust, belief).

  (** TruthFinder.get_log_trust (truth_finder.py:37-51); None is EarlyFinishError *)
  Definition get_log_trust (trust : vec F) : option (vec F) :=
    if existsb (fun t => t =? 1) trust then None
    else Some (map (fun t => - n_ln (1 - t)) trust).
  (** TruthFinder._run (truth_finder.py:53-81) *)
  Definition tf_a_mat (d : data) : mat F := mtr (mmulc (mtr (sc d)) (sdivv 1 (claim_counts d))).
  Definition tf_b_mat (rho : F) (d : data) : mat F := madd (mtr (sc d)) (smul rho (mm (mtr (imp d)) (mtr (sc d)))).
  Definition tf_body (rho gamma : F) (d : data) (x : vec F * vec F) : M ((vec F * vec F) * bool) :=
    let (trust, belief) := x in
    match get_log_trust trust with
    | None => ret ((trust, belief), true)
    | Some tau =>
        let log_belief := mv (tf_b_mat rho d) tau in
        let belief := map (fun y => 1 / (1 + n_exp (- gamma * y))) log_belief in
        let new_trust := mv (tf_a_mat d) belief in
        _ <~ compareM new_trust trust ;;;
        let trust := new_trust in
        _ <~ log d trust belief ;;;
        ret ((trust, belief), false)
    end.
  Definition tf_run (rho gamma t0 : F) (fuel : nat) (d : data) : M (vec F * vec F) :=
    let trust := vfull (num_sources d) t0 in
    let belief := vzeros (num_claims d) in
    _ <~ log d trust belief ;;;
    while_ fuel (tf_body rho gamma d) (trust, belief).

  (** CRH._run (crh.py:22-39), dense matrices; sums are left to right. Note: no log call before the loop. *)
  Definition toarray (A : mat F) (i j : nat) : F := if m_stored A i j then m_entry A i j else 0.
  Definition crh_z (d : data) (belief : vec F) (i j : nat) : F :=
    let y := nth j belief 0 - (if Nat.eqb i j then 1 else 0) in
    toarray (mut_ex d) i j * (y * y).
  (* (data.sc @ z @ ones)[s] *)
  Definition crh_loss (d : data) (belief : vec F) (s : nat) : F :=
    vsum (map (fun j => vsum (map (fun i => m_entry (sc d) s i * crh_z d belief i j)
                               (filter (m_stored (sc d) s) (seq 0 (num_claims d)))) * 1)
            (seq 0 (num_claims d))).
  Definition crh_body (eps : F) (d : data) (x : vec F * vec F) : M ((vec F * vec F) * bool) :=
    let (trust, belief) := x in
    let alpha := map (fun s => eps + crh_loss d belief s) (seq 0 (num_sources d)) in
    let new_trust := map (fun a => eps - n_ln (a / vsum alpha)) alpha in
    let belief := vdivs (mv (mtr (sc d)) new_trust) (vsum new_trust) in
    _ <~ compareM trust new_trust ;;;
    let trust := new_trust in
    _ <~ log d trust belief ;;;
    ret ((trust, belief), false).
  Definition crh_run (eps : F) (fuel : nat) (d : data) : M (vec F * vec F) :=
    let trust := vzeros (num_sources d) in
    let belief := vdivs (source_counts d) (n_ofZ (Z.of_nat (num_sources d))) in
    while_ fuel (crh_body eps d) (trust, belief).

  (** UnboundedSums._run (unboundedsums.py:16-36) *)
  Definition rescale (v : vec F) : M (vec F) :=
    match npmax v with
    | Some m => ret (if n_ofZ 1000 <? m then vdivs v (n_ofZ 1000) else v)
    | None => fail EmptySequence
    end.
  Definition usums_body (d : data) (x : vec F * vec F) : M ((vec F * vec F) * bool) :=
    let (trust, belief) := x in
    let new_trust := mv (sc d) belief in
    let belief := mv (mtr (sc d)) new_trust in
    _ <~ compareM trust new_trust ;;;
    trust <~ rescale new_trust ;;;
    belief <~ rescale belief ;;;
    _ <~ log d trust belief ;;;
    ret ((trust, belief), false).
  (* self.iterator.get_ranking_vector: only OrdinalConvergenceIterator has this method *)
  Definition iterator_ranking (v : vec F) : M (vec F) := fun st =>
    match st_it st with
    | IOrd _ _ _ => match get_ranking_vector v with Some r => (Ok r, st) | None => (Err KeyErr, st) end
    | _ => (Err NoSuchMethod, st)
    end.
  Definition usums_run (fuel : nat) (p : prior) (d : data) : M (vec F * vec F) :=
    let trust := vzeros (num_sources d) in
    belief <~ get_prior_beliefs p d ;;;
    _ <~ log d trust belief ;;;
    ' (trust, belief) <~ while_ fuel (usums_body d) (trust, belief) ;;;
    rtrust <~ iterator_ranking trust ;;;
    rbelief <~ iterator_ranking belief ;;;
    ret (rtrust, rbelief).

  Definition alg_run (a : alg F) (fuel : nat) (p : prior) (d : data) : M (vec F * vec F) :=
    match a with
    | Sums => sums_run fuel p d
    | AverageLog => avlog_run fuel p d
    | Investment g => inv_run g fuel p d
    | PooledInvestment g => pooled_run g fuel p d
    | TruthFinder rho gamma t0 => tf_run rho gamma t0 fuel d
    | CRH eps => crh_run eps fuel d
    | UnboundedSums => usums_run fuel p d
    end.

  (** ** Algorithm objects (base.py:59-138) *)
  Record aobj := AObj { o_alg : alg F; o_priors : prior; o_it : iterator F; o_log : option (list result) }.

  (** BaseIterativeAlgorithm.run (base.py:33-40, 114-126) *)
  Definition run (fuel : nat) (o : aobj) (d : data) : res aerr result * aobj :=
    if Nat.eqb (num_claims d) 0 then (Err EmptyDatasetError, o)
    else
      let (r, st) := alg_run (o_alg o) fuel (o_priors o) d (MState (reset (o_it o)) None []) in
      let o' := AObj (o_alg o) (o_priors o) (st_it st) (st_log st) in
      match r with
      | Err e => (Err e, o')
      | Ok (trust, belief) =>
          match get_source_trust_dict d trust, get_belief_dict d belief with
          | Some t, Some b => (Ok (Result t b (clock 1 - clock 0) (Some (it_count (st_it st)))), o')
          | _, _ => (Err KeyErr, o')
          end
      end.

  (** what [run] prints on stdout if its iterator is a convergence iterator with debug=True (iterator.py:111-112) *)
  Definition debug_output (fuel : nat) (o : aobj) (d : data) : list (nat * F) :=
    if Nat.eqb (num_claims d) 0 then []
    else st_out (snd (alg_run (o_alg o) fuel (o_priors o) d (MState (reset (o_it o)) None []))).

  (** BaseIterativeAlgorithm.run_iter (base.py:128-138): what the generator does when it is first advanced, and the list
      of results it will yield. *)
  Definition run_iter (fuel : nat) (o : aobj) (d : data) : res aerr (list result) * aobj :=
    if Nat.eqb (num_claims d) 0 then (Err EmptyDatasetError, o)
    else
      let (r, st) := alg_run (o_alg o) fuel (o_priors o) d (MState (reset (o_it o)) (Some []) []) in
      let o' := AObj (o_alg o) (o_priors o) (st_it st) (st_log st) in
      match r with
      | Err e => (Err e, o')
      | Ok _ => match st_log st with Some l => (Ok l, o') | None => (Ok [], o') end
      end.

  (** MajorityVoting.run (voting.py:15-29); base.py:33-40 *)
  Definition voting_run (d : data) : res aerr result :=
    if Nat.eqb (num_claims d) 0 then Err EmptyDatasetError
    else
      let claim_belief := source_counts d in
      match npmax claim_belief with
      | None => Err EmptySequence
      | Some m =>
          let normalised_belief := vdivs claim_belief m in
          match get_source_trust_dict d (repeat (n_ofZ 1) (num_sources d)), get_belief_dict d normalised_belief with
          | Some t, Some b => Ok (Result t b (clock 1 - clock 0) None)
          | _, _ => Err KeyErr
          end
      end.
End Algorithms.
Arguments mst : clear implicits. Arguments aobj : clear implicits. Arguments M : clear implicits.

(** Constructors with the class defaults (base.py:64-86; investment.py:12-26; pooled_investment.py:15-22;
    truth_finder.py:12-35; crh.py:10-20; unboundedsums.py:12-15).  None is an omitted argument. *)
Section Constructors.
  Context {S V W : Type} {F : Num}.
  Definition dflt {A} (d : A) (o : option A) : A := match o with Some a => a | None => d end.
  Definition default_iterator (a : alg F) : iterator F :=
    match a with
    | PooledInvestment _ => IFixed 10 0
    | TruthFinder _ _ _ => mk_conv COSINE (Some (lit 1 1000)) None
    | UnboundedSums => mk_ord None
    | _ => IFixed 20 0
    end.
  Definition default_priors (a : alg F) : prior :=
    match a with
    | Investment _ => VOTED
    | PooledInvestment _ => UNIFORM
    | UnboundedSums => COUNT
    | _ => FIXED
    end.
  Definition mk_obj (a : alg F) (it : option (iterator F)) (p : option prior) : aobj S V W F :=
    AObj a (dflt (default_priors a) p) (dflt (default_iterator a) it) None.
  Definition mk_investment (g : option F) : alg F := Investment (dflt (lit 12 10) g).
  Definition mk_pooled (g : option F) : alg F := PooledInvestment (dflt (lit 14 10) g).
  Definition mk_truthfinder (rho gamma t0 : option F) : alg F :=
    TruthFinder (dflt (lit 5 10) rho) (dflt (lit 3 10) gamma) (dflt (lit 9 10) t0).
  Definition mk_crh (eps : option F) : alg F := CRH (dflt (lit 1 100000) eps).
End Constructors.
