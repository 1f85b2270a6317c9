(** Model of client/base.py: labels, parameter strings, iterator strings, output objects. *)
From Coq Require Import NArith String.
From Verif Require Import Base Num Spec Dataset Iterators Algorithms Results PyStr Regex Supervised.

(** Exceptions.  All but the last three are ValueErrors. *)
Inductive cerr :=
| BadAlgorithmLabel        (* base.py:65 *)
| BadParameterForm         (* base.py:79 *)
| TooManyIterations        (* base.py:103 *)
| BadMeasureName           (* base.py:114 *)
| LimitTooHigh             (* base.py:122 *)
| BadIteratorSpec          (* base.py:128 *)
| NotAFloat                (* float() of a string that is not a number *)
| BadPriorName             (* PriorBelief() of a string that is not a value of the enumeration *)
| FromIterator (e : aerr)  (* FixedIterator's constructor *)
| UnexpectedKeyword        (* TypeError *)
| IllTyped.                (* not an exception of the constructors: a parameter value of the wrong type *)
Definition is_value_error (e : cerr) : Prop := match e with FromIterator _ | UnexpectedKeyword | IllTyped => False | _ => True end.

Definition dash : pychar := 45%N.
Definition equals_sign : pychar := 61%N.

(** s.split(sep, maxsplit=1), when sep occurs *)
Fixpoint split_once (sep : pychar) (s : pystr) : option (pystr * pystr) :=
  match s with
  | [] => None
  | c :: t => if beq c sep then Some ([], t) else match split_once sep t with Some (a, b) => Some (c :: a, b) | None => None end
  end.

(** DistanceMeasures (iterator.py:8-21): values and members, in order *)
Definition measure_values : list (pystr * measure) :=
  [(lit_str "l1", L1); (lit_str "l2", L2); (lit_str "l_inf", L_INF); (lit_str "cosine", COSINE)].
(** DistanceMeasures(s): lookup by value *)
Definition measure_of (s : pystr) : option measure := dget measure_values s.
(** PriorBelief(s) (algorithm/base.py:12-22) *)
Definition prior_of (s : pystr) : option prior :=
  dget [(lit_str "fixed", FIXED); (lit_str "voted", VOTED); (lit_str "count", COUNT); (lit_str "uniform", UNIFORM)] s.

(** The classes of algorithm/*.py, for get_parameter_names and ALG_LABEL_MAPPING *)
Inductive cls := CObject | CBaseAlgorithm | CBaseIterative | CAverageLog | CInvestment | CPooledInvestment | CSums | CUnboundedSums | CTruthFinder | CCRH | CMajorityVoting.
#[export] Instance Eqb_cls : Eqb cls.
Proof.
  refine {| beq := fun a b => match a, b with
    | CObject, CObject | CBaseAlgorithm, CBaseAlgorithm | CBaseIterative, CBaseIterative | CAverageLog, CAverageLog | CInvestment, CInvestment
    | CPooledInvestment, CPooledInvestment | CSums, CSums | CUnboundedSums, CUnboundedSums | CTruthFinder, CTruthFinder | CCRH, CCRH
    | CMajorityVoting, CMajorityVoting => true | _, _ => false end |}.
  intros [] []; constructor; congruence.
Defined.
(** cls.__bases__ *)
Definition bases (c : cls) : list cls :=
  match c with
  | CObject => []
  | CBaseAlgorithm => [CObject]
  | CBaseIterative | CMajorityVoting => [CBaseAlgorithm]
  | CPooledInvestment => [CInvestment]
  | _ => [CBaseIterative]
  end.
(** inspect.signature(cls.__init__).parameters; a class without its own __init__ inherits its base's *)
Definition init_signature (c : cls) : list pystr :=
  map lit_str match c with
  | CObject | CBaseAlgorithm | CMajorityVoting => ["self"; "args"; "kwargs"]             (* object.__init__(self, /, *args, **kwargs) *)
  | CBaseIterative | CAverageLog | CSums | CUnboundedSums => ["self"; "iterator"; "priors"]     (* base.py:68 *)
  | CInvestment | CPooledInvestment => ["self"; "args"; "g"; "kwargs"]                   (* investment.py:17 *)
  | CTruthFinder => ["self"; "args"; "influence_param"; "dampening_factor"; "initial_trust"; "kwargs"]   (* truth_finder.py:15 *)
  | CCRH => ["self"; "args"; "eps"; "kwargs"]                                            (* crh.py:12 *)
  end%string.
(** yield_names (algorithm/base.py:50-55).  [depth] bounds the depth of the class hierarchy, which is 5. *)
Fixpoint yield_names (depth : nat) (c : cls) : list pystr :=
  match depth with
  | O => []
  | S n => filter (fun p => negb (mem p [lit_str "self"; lit_str "args"; lit_str "kwargs"])) (init_signature c) ++ flat_map (yield_names n) (bases c)
  end.
(** get_parameter_names (algorithm/base.py:42-56): set(yield_names(cls)), listed in an order of its own *)
Definition parameter_names (c : cls) : list pystr := distinct (yield_names 5 c).

(** ALG_LABEL_MAPPING (client/base.py:43-52) *)
Definition alg_labels : dict pystr cls :=
  [(lit_str "average_log", CAverageLog); (lit_str "investment", CInvestment); (lit_str "pooled_investment", CPooledInvestment); (lit_str "sums", CSums);
   (lit_str "usums", CUnboundedSums); (lit_str "truthfinder", CTruthFinder); (lit_str "crh", CCRH); (lit_str "voting", CMajorityVoting)].
(** algorithm_cls (client/base.py:54-67) *)
Definition algorithm_cls (alg_label : pystr) : res cerr cls := match dget alg_labels alg_label with Some c => Ok c | None => Err BadAlgorithmLabel end.
(** ALG_LABEL_MAPPING.inverse[cls]; None is a KeyError *)
Definition label_of (c : cls) : option pystr := dget (map (fun p => (snd p, fst p)) alg_labels) c.

Section Client.
  Context {F : Num}.
  (** float(s); None is its ValueError *)
  Variable pfloat : pystr -> option F.
  (** the value of a decimal digit character (unicodedata category Nd): what \d matches and what int() reads *)
  Variable decimal : pychar -> option N.
  Definition is_decimal (c : pychar) : bool := match decimal c with Some _ => true | None => false end.
  (** int(s) for a string of decimal digits *)
  Definition int_of (s : pystr) : Z := Z.of_N (fold_left (fun a c => 10 * a + match decimal c with Some d => d | None => 0 end)%N s 0%N).

  (** r"fixed-(?P<limit>\d+)$" (client/base.py:94) *)
  Definition fixed_regex : rx := RSeq (RLit (lit_str "fixed-")) (RSeq (RGroup 0 (RPlus is_decimal)) REnd).
  (** r"(?P<measure>[^-]+)-convergence-(?P<threshold>[^-]+)(-limit-(?P<limit>\d+))?$" (client/base.py:95-98) *)
  Definition not_dash (c : pychar) : bool := negb (beq c dash).
  Definition convergence_regex : rx :=
    RSeq (RGroup 1 (RPlus not_dash)) (RSeq (RLit (lit_str "-convergence-")) (RSeq (RGroup 2 (RPlus not_dash))
      (RSeq (ROpt (RSeq (RLit (lit_str "-limit-")) (RGroup 0 (RPlus is_decimal)))) REnd))).
  (** get_iterator (client/base.py:90-130) *)
  Definition get_iterator (max_limit : Z) (it_string : pystr) : res cerr (iterator F) :=
    match re_match fixed_regex it_string with
    | Some cp =>
        let limit := int_of (match group cp 0 with Some s => s | None => [] end) in
        if (max_limit <? limit)%Z then Err TooManyIterations
        else match mk_fixed (Some limit) with Ok it => Ok it | Err e => Err (FromIterator e) end
    | None =>
        match re_match convergence_regex it_string with
        | Some cp =>
            match measure_of (match group cp 1 with Some s => s | None => [] end) with
            | None => Err BadMeasureName
            | Some m =>
                match pfloat (match group cp 2 with Some s => s | None => [] end) with
                | None => Err NotAFloat
                | Some threshold =>
                    match group cp 0 with
                    | None => Ok (mk_conv m (Some threshold) (Some max_limit))
                    | Some s =>
                        if (max_limit <? int_of s)%Z then Err LimitTooHigh else Ok (mk_conv m (Some threshold) (Some (int_of s)))
                    end
                end
            end
        | None => Err BadIteratorSpec
        end
    end.

  (** Values of algorithm parameters *)
  Inductive pvalue := PIterator (it : iterator F) | PPrior (p : prior) | PFloat (x : F).
  (** algorithm_parameter (client/base.py:69-88) *)
  Definition algorithm_parameter (param_string : pystr) : res cerr (pystr * pvalue) :=
    match split_once equals_sign param_string with
    | None => Err BadParameterForm
    | Some (a, b) =>
        let param := strip a in
        let value := strip b in
        if beq param (lit_str "iterator") then match get_iterator 200 value with Ok it => Ok (param, PIterator it) | Err e => Err e end
        else if beq param (lit_str "priors") then match prior_of value with Some p => Ok (param, PPrior p) | None => Err BadPriorName end
        else match pfloat value with Some x => Ok (param, PFloat x) | None => Err NotAFloat end
    end.

  (** get_algorithm_params (client/base.py:138-147).  The set of names is iterated in an unspecified order [ord]. *)
  Definition get_algorithm_params (ord : list pystr -> list pystr) (c : cls) (param_dict : dict pystr pvalue) : dict pystr pvalue * list pystr :=
    let filtered := dict_of (filter_dict param_dict (ord (parameter_names c))) in
    (filtered, filter (fun k => negb (mem k (dkeys filtered))) (dkeys param_dict)).

  (** ** get_algorithm_object (client/base.py:132-136): alg_cls( **param_dict ) *)
  Inductive cobj (S V W : Type) := OVoting | OIterative (o : aobj S V W F).
  Arguments OVoting {S V W}. Arguments OIterative {S V W}.
  Definition kw_float (params : dict pystr pvalue) (name : pystr) : res cerr (option F) :=
    match dget params name with None => Ok None | Some (PFloat x) => Ok (Some x) | Some _ => Err IllTyped end.
  (* BaseIterativeAlgorithm.__init__( **kwargs ) (algorithm/base.py:68-77), where kwargs are the given parameters but for
     those named in [own], which the subclass took *)
  Definition base_init {S V W} (own : list pystr) (a : alg F) (params : dict pystr pvalue) : res cerr (cobj S V W) :=
    if forallb (fun k => mem k (own ++ [lit_str "iterator"; lit_str "priors"])) (dkeys params) then
      it <- match dget params (lit_str "iterator") with None => Ok None | Some (PIterator it) => Ok (Some it) | Some _ => Err IllTyped end ;;
      p <- match dget params (lit_str "priors") with None => Ok None | Some (PPrior p) => Ok (Some p) | Some _ => Err IllTyped end ;;
      Ok (OIterative (mk_obj a it p))
    else Err UnexpectedKeyword.
  Definition get_algorithm_object {S V W} (c : cls) (params : dict pystr pvalue) : res cerr (cobj S V W) :=
    match c with
    | CMajorityVoting => match params with [] => Ok OVoting | _ => Err UnexpectedKeyword end    (* object() takes no arguments *)
    | CSums => base_init [] Sums params
    | CAverageLog => base_init [] AverageLog params
    | CUnboundedSums => base_init [] UnboundedSums params
    | CInvestment => g <- kw_float params (lit_str "g") ;; base_init [lit_str "g"] (mk_investment g) params
    | CPooledInvestment => g <- kw_float params (lit_str "g") ;; base_init [lit_str "g"] (mk_pooled g) params
    | CTruthFinder =>
        rho <- kw_float params (lit_str "influence_param") ;;
        gamma <- kw_float params (lit_str "dampening_factor") ;;
        t0 <- kw_float params (lit_str "initial_trust") ;;
        base_init [lit_str "influence_param"; lit_str "dampening_factor"; lit_str "initial_trust"] (mk_truthfinder rho gamma t0) params
    | CCRH => eps <- kw_float params (lit_str "eps") ;; base_init [lit_str "eps"] (mk_crh eps) params
    | CObject | CBaseAlgorithm | CBaseIterative => Err IllTyped        (* never requested by a client *)
    end.

  (** sorted(names) for strings: by code points *)
  Fixpoint str_ltb (s t : pystr) : bool :=
    match s, t with
    | _, [] => false
    | [], _ :: _ => true
    | c :: s', d :: t' => if N.eqb c d then str_ltb s' t' else N.ltb c d
    end.
  (** sorted is stable: an item goes before the first item that does not compare less *)
  Fixpoint insert_by {A} (lt : A -> A -> bool) (x : A) (l : list A) : list A :=
    match l with [] => [x] | y :: t => if lt y x then y :: insert_by lt x t else x :: l end.
  Definition sort_with {A} (lt : A -> A -> bool) (l : list A) : list A := fold_right (insert_by lt) [] l.
  (** cls.__name__ *)
  Definition class_name (c : cls) : pystr :=
    lit_str match c with
    | CObject => "object" | CBaseAlgorithm => "BaseAlgorithm" | CBaseIterative => "BaseIterativeAlgorithm" | CAverageLog => "AverageLog"
    | CInvestment => "Investment" | CPooledInvestment => "PooledInvestment" | CSums => "Sums" | CUnboundedSums => "UnboundedSums"
    | CTruthFinder => "TruthFinder" | CCRH => "CRH" | CMajorityVoting => "MajorityVoting"
    end%string.
  (** get_ignored_parameters_message (client/base.py:149-159) *)
  Definition ignored_message (c : cls) (names : list pystr) : pystr :=
    lit_str "Ignored parameters for '" ++ class_name c ++ lit_str "': " ++ join (lit_str ", ") (sort_with str_ltb names).
End Client.
Arguments OVoting {F S V W}. Arguments OIterative {F S V W}. Arguments cobj : clear implicits. Arguments pvalue : clear implicits.

(** ** get_output_obj (client/base.py:161-208) *)
(** OutputFields (client/base.py:25-36), in the order of definition *)
Inductive field := FAccuracy | FBelief | FBeliefStats | FIterations | FMostBelieved | FTime | FTrust | FTrustStats.
#[export] Instance Eqb_field : Eqb field.
Proof.
  refine {| beq := fun a b => match a, b with
    | FAccuracy, FAccuracy | FBelief, FBelief | FBeliefStats, FBeliefStats | FIterations, FIterations | FMostBelieved, FMostBelieved
    | FTime, FTime | FTrust, FTrust | FTrustStats, FTrustStats => true | _, _ => false end |}.
  intros [] []; constructor; congruence.
Defined.
Definition all_fields : list field := [FAccuracy; FBelief; FBeliefStats; FIterations; FMostBelieved; FTime; FTrust; FTrustStats].

Inductive outval (S V W F : Type) :=
| VTime (t : F) | VIterations (n : option nat) | VTrust (t : dict S F) | VBelief (b : dict V (dict W F)) | VTrustStats (m s : F)
| VBeliefStats (d : dict V (F * F)) | VAccuracy (a : option F) | VMostBelieved (d : dict V (list W)).
Arguments VTime {S V W F}. Arguments VIterations {S V W F}. Arguments VTrust {S V W F}. Arguments VBelief {S V W F}. Arguments VTrustStats {S V W F}.
Arguments VBeliefStats {S V W F}. Arguments VAccuracy {S V W F}. Arguments VMostBelieved {S V W F}.

Section Output.
  Context {S V W : Type} {ES : Eqb S} {EV : Eqb V} {EW : Eqb W} {F : Num}.
  Notation result := (result S V W F).
  Variable ltw : W -> W -> bool.      (* < on values, for sorted() *)
  Variable rnd : nat -> nat.          (* random.choice *)
  (** most_bel = {}; for var in results.belief: most_bel[var] = sorted(...) *)
  Fixpoint most_believed_loop (r : result) (vars : list V) (acc : dict V (list W)) : res rerr (dict V (list W)) :=
    match vars with
    | [] => Ok acc
    | var :: rest => vals <- get_most_believed_values r var ;; most_believed_loop r rest (dset acc var (sort_with ltw vals))
    end.
  (** one round of the loop over the fields; None: the field is not put into the output *)
  Definition output_field (r : result) (sup : option (dict V W)) (f : field) : res rerr (option (outval S V W F)) :=
    match f with
    | FTime => Ok (Some (VTime (r_time r)))
    | FIterations => Ok (Some (VIterations (r_iterations r)))
    | FTrust => Ok (Some (VTrust (r_trust r)))
    | FBelief => Ok (Some (VBelief (r_belief r)))
    | FTrustStats => let (mean, stddev) := get_trust_stats r in Ok (Some (VTrustStats mean stddev))
    | FBeliefStats => Ok (Some (VBeliefStats (get_belief_stats r)))
    | FAccuracy =>
        match sup with
        | None => Ok None
        | Some values =>
            match get_accuracy rnd values r with
            | Ok acc => Ok (Some (VAccuracy (Some acc)))
            | Err NoTrueValues | Err NoChoice => Ok (Some (VAccuracy None))        (* except ValueError *)
            | Err (AccResult e) => Err e
            end
        end
    | FMostBelieved => d <- most_believed_loop r (dkeys (r_belief r)) [] ;; Ok (Some (VMostBelieved d))
    end.
  Fixpoint output_loop (r : result) (sup : option (dict V W)) (fields : list field) (out : dict field (outval S V W F)) : res rerr (dict field (outval S V W F)) :=
    match fields with
    | [] => Ok out
    | f :: rest => o <- output_field r sup f ;; output_loop r sup rest (match o with Some v => dset out f v | None => out end)
    end.
  Definition get_output_obj (r : result) (output_fields : option (list field)) (sup : option (dict V W)) : res rerr (dict field (outval S V W F)) :=
    output_loop r sup (match output_fields with Some (f :: fs) => f :: fs | _ => all_fields end) [].
End Output.
