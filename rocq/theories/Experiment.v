(** Model of examples/synthetic_experiment.py (class Experiment and its subclasses, lines 33-93 and the constructors at 107-124,
    180-184, 220-224) and of perform_test of examples/timing_test.py (70-101).  The plotting functions are not modelled. *)
From Coq Require Import String.
From Verif Require Import Base Num Spec Dataset Iterators Algorithms Results PyStr Matrix Supervised.

(** * Synthetic experiments *)
Section Experiment.
  Context {F : Num} {L : Type} {EL : Eqb L}.     (* L: the labels of the values of the independent variable *)

  (** Python values that occur as parameters of SyntheticData: ints, floats, one-dimensional arrays *)
  Inductive pdata := DInt (z : Z) | DFloat (x : F) | DArray (v : list F).
  (** what a call in the t-th trial does: return, raise TypeError (also from inside the callable), or raise something else *)
  Inductive called := Returns (d : pdata) | RaisesTypeError | RaisesOther.
  Inductive pvalue := VData (d : pdata) | VCall (f : nat -> called).
  (** iterator objects: itertools.repeat(v), or an iterator with the given items left *)
  Inductive piter := Repeat (v : pvalue) | Items (l : list pvalue).
  (** values of the dict synth_params: a plain value, a list of values (or a dict view), or an iterator put there by a constructor *)
  Inductive slot := Plain (v : pvalue) | Listed (l : list pvalue) | Iter (i : piter).

  (** iter(val), or itertools.repeat(val) if that is a TypeError (synthetic_experiment.py:46-52).  Arrays are iterable. *)
  Definition py_iter (s : slot) : piter :=
    match s with
    | Plain (VData (DArray v)) => Items (map (fun x => VData (DFloat x)) v)
    | Plain v => Repeat v
    | Listed l => Items l
    | Iter i => i
    end.
  (** Experiment.__init__ (synthetic_experiment.py:45-52): changes the dict, which belongs to the class *)
  Definition exp_init (sp : dict pystr slot) : dict pystr slot := map (fun p => (fst p, Iter (py_iter (snd p)))) sp.
  (** The constructors of the subclasses (synthetic_experiment.py:107-124, 180-184, 220-224): set the independent variable, then the above *)
  Definition exp_construct (key : pystr) (values : list pvalue) (sp : dict pystr slot) : dict pystr slot := exp_init (dset sp key (Listed values)).

  Inductive exp_err :=
  | ERuntime                    (* RuntimeError: StopIteration inside a generator (PEP 479) *)
  | ETypeError                  (* unknown keyword, or an argument of the wrong type *)
  | ECallable                   (* a callable raised *)
  | ESyn (e : syn_err)          (* ValueError of SyntheticData *)
  | EData (e : derr nat nat)
  | EAlg (e : aerr)
  | EAcc (e : acc_err).

  (** next(seq) *)
  Definition py_next (i : piter) : option (pvalue * piter) :=
    match i with Repeat v => Some (v, Repeat v) | Items [] => None | Items (v :: l) => Some (v, Items l) end.
  (** get_synth_params (synthetic_experiment.py:74-79): one value from each iterator; iterators before an exhausted one have
      advanced.  [next] of a value that is no iterator is a TypeError (the constructor was not run). *)
  Fixpoint get_synth_params (sp : dict pystr slot) : res exp_err (dict pystr pvalue) * dict pystr slot :=
    match sp with
    | [] => (Ok [], [])
    | (key, Iter i) :: rest =>
        match py_next i with
        | None => (Err ERuntime, sp)
        | Some (v, i') => let (r, rest') := get_synth_params rest in
                          (match r with Ok l => Ok ((key, v) :: l) | Err e => Err e end, (key, Iter i') :: rest')
        end
    | _ => (Err ETypeError, sp)
    end.

  (** an argument of SyntheticData: data, or a function (when calling it was a TypeError) *)
  Inductive parg := AData (d : pdata) | AFun.
  (** the inner loop over params.items() (synthetic_experiment.py:61-66), in the t-th trial *)
  Definition call_value (t : nat) (v : pvalue) : res exp_err parg :=
    match v with
    | VData d => Ok (AData d)
    | VCall f => match f t with Returns d => Ok (AData d) | RaisesTypeError => Ok AFun | RaisesOther => Err ECallable end
    end.
  Definition call_params (t : nat) (params : dict pystr pvalue) : res exp_err (dict pystr parg) :=
    mapM (fun p : pystr * pvalue => a <- call_value t (snd p) ;; Ok (fst p, a)) params.

  Definition k_trust := lit_str "trust"%string.
  Definition k_num_variables := lit_str "num_variables"%string.
  Definition k_claim_probability := lit_str "claim_probability"%string.
  Definition k_domain_size := lit_str "domain_size"%string.
  (** SyntheticData( **params ) (synthetic_data.py:14-70): the matrix and the true values.  Simplified: a missing trust, an unknown
      keyword and an argument of the wrong type are one error, raised before the checks of the values. *)
  Definition synthetic (g : rng F) (ps : dict pystr parg) : res exp_err (matrix nat * list nat) :=
    if negb (forallb (fun k => mem k [k_trust; k_num_variables; k_claim_probability; k_domain_size]) (dkeys ps)) then Err ETypeError
    else
      match dget ps k_trust, dflt (AData (DInt 100)) (dget ps k_num_variables), dflt (AData (DFloat (lit 1 2))) (dget ps k_claim_probability), dflt (AData (DInt 4)) (dget ps k_domain_size) with
      | Some (AData (DArray tr)), AData (DInt nv), AData cp, AData (DInt dom) =>
          match cp with
          | DArray _ => Err ETypeError
          | DFloat p => match generate g (Trust1 tr) nv p dom with Ok q => Ok q | Err e => Err (ESyn e) end
          | DInt z => match generate g (Trust1 tr) nv (n_ofZ z) dom with Ok q => Ok q | Err e => Err (ESyn e) end
          end
      | _, _, _, _ => Err ETypeError
      end.

  (** algorithm objects (ALGORITHMS, synthetic_experiment.py:24-31) *)
  Inductive algo := AVoting | AIterative (o : aobj nat nat nat F).
  (** Everything outside the program in trial t: random draws for the data, random.choice and the clock for the j-th algorithm *)
  Record outside := Outside { ou_rng : nat -> rng F; ou_choice : nat -> nat -> nat -> nat; ou_clock : nat -> nat -> nat -> F }.
  Variables (W : outside) (fuel : nat).

  (** alg.run(synth.data) *)
  Definition algo_run (t j : nat) (a : algo) (d : dataset nat nat nat F) : res aerr (result nat nat nat F) * algo :=
    match a with
    | AVoting => (voting_run (ou_clock W t j) d, AVoting)
    | AIterative o => let (r, o') := run (ou_clock W t j) fuel o d in (r, AIterative o')
    end.
  (** the loop over self.algorithms.items() (synthetic_experiment.py:69-72) *)
  Fixpoint algs_loop (t j : nat) (algs : list (pystr * algo)) (d : dataset nat nat nat F) (values : dict nat nat) (results : dict pystr (list F)) :
      res exp_err (dict pystr (list F)) * list (pystr * algo) :=
    match algs with
    | [] => (Ok results, [])
    | (alg_label, alg) :: rest =>
        let (r, alg') := algo_run t j alg d in
        match r with
        | Err e => (Err (EAlg e), (alg_label, alg') :: rest)
        | Ok res =>
            match get_accuracy (ou_choice W t j) values res with
            | Err e => (Err (EAcc e), (alg_label, alg') :: rest)
            | Ok acc =>
                let this_res := dflt [] (dget results alg_label) in
                let (out, rest') := algs_loop t (S j) rest d values (dset results alg_label (this_res ++ [acc])) in
                (out, (alg_label, alg') :: rest')
            end
        end
    end.
  (** one repetition (synthetic_experiment.py:60-72) *)
  Definition trial (t : nat) (params : dict pystr pvalue) (algs : list (pystr * algo)) (results : dict pystr (list F)) : res exp_err (dict pystr (list F)) * list (pystr * algo) :=
    match (this_params <- call_params t params ;; synthetic (ou_rng W t) this_params) with
    | Err e => (Err e, algs)
    | Ok (m, tv) =>
        match matrix_dataset (fun n => n) false None m with
        | Err e => (Err (EData e), algs)
        | Ok d => algs_loop t 0 algs d (true_dict tv) results
        end
    end.
  (** for _ in range(self.reps); [t] counts all trials *)
  Fixpoint reps_loop (reps t : nat) (params : dict pystr pvalue) (algs : list (pystr * algo)) (results : dict pystr (list F)) : res exp_err (dict pystr (list F)) * list (pystr * algo) :=
    match reps with
    | O => (Ok results, algs)
    | S n => match trial t params algs results with
             | (Ok results', algs') => reps_loop n (S t) params algs' results'
             | (Err e, algs') => (Err e, algs')
             end
    end.
  (** Experiment.run (synthetic_experiment.py:54-72): the dict returned, and the iterators and algorithm objects afterwards *)
  Fixpoint labels_loop (reps t : nat) (labels : list L) (sp : dict pystr slot) (algs : list (pystr * algo)) (out : dict L (dict pystr (list F))) :
      res exp_err (dict L (dict pystr (list F))) * (dict pystr slot * list (pystr * algo)) :=
    match labels with
    | [] => (Ok out, (sp, algs))
    | var_label :: rest =>
        match get_synth_params sp with
        | (Err e, sp') => (Err e, (sp', algs))
        | (Ok params, sp') =>
            match reps_loop reps t (dict_of params) algs [] with
            | (Err e, algs') => (Err e, (sp', algs'))
            | (Ok results, algs') => labels_loop reps (t + reps) rest sp' algs' (dset out var_label results)
            end
        end
    end.
  Definition exp_run (reps : nat) (labels : list L) (sp : dict pystr slot) (algs : list (pystr * algo)) := labels_loop reps 0 labels sp algs [].
End Experiment.
Arguments pdata : clear implicits. Arguments called : clear implicits. Arguments pvalue : clear implicits. Arguments piter : clear implicits. Arguments slot : clear implicits.
Arguments parg : clear implicits. Arguments algo : clear implicits. Arguments outside : clear implicits.

(** * Timing *)
Section Timing.
  Context {F : Num} {C W : Type} {EW : Eqb W}.
  Variable label : C -> W.
  (** master_sv[0:n, 0:m]: slices stop at the end of the array; negative ends count from the end *)
  Definition slice_end (len : nat) (n : Z) : nat := if (n <? 0)%Z then Z.to_nat (Z.max 0 (Z.of_nat len + n)) else Z.to_nat (Z.min n (Z.of_nat len)).
  Definition reduce_to (m : matrix C) (n k : Z) : matrix C := map (fun row => firstn (slice_end (length row) k) row) (firstn (slice_end (length m) n) m).
  (** perform_test (timing_test.py:70-101): [timer] is alg.run(data) as far as the result's time_taken is concerned *)
  Variable A : Type.
  Variable timer : A -> nat -> dataset nat nat W F -> res aerr F.
  Inductive tim_err := TData (e : derr nat nat) | TAlg (e : aerr).
  Fixpoint timing_algs (i : nat) (algs : list (pystr * A)) (d : dataset nat nat W F) (timings : dict pystr (list F)) : res tim_err (dict pystr (list F)) :=
    match algs with
    | [] => Ok timings
    | (alg_label, alg) :: rest =>
        match timer alg i d with
        | Err e => Err (TAlg e)
        | Ok time =>
            let timings := if dmem timings alg_label then timings else dset timings alg_label [] in
            timing_algs i rest d (dset timings alg_label (dflt [] (dget timings alg_label) ++ [time]))
        end
    end.
  Fixpoint timing_loop (i : nat) (m : matrix C) (shapes : list (Z * Z)) (algs : list (pystr * A)) (timings : dict pystr (list F)) : res tim_err (dict pystr (list F)) :=
    match shapes with
    | [] => Ok timings
    | (n, k) :: rest =>
        match matrix_dataset label false None (reduce_to m n k) with
        | Err e => Err (TData e)
        | Ok d => match timing_algs i algs d timings with Ok timings' => timing_loop (S i) m rest algs timings' | Err e => Err e end
        end
    end.
  Definition perform_test (m : matrix C) (shapes : list (Z * Z)) (algs : list (pystr * A)) : res tim_err (dict pystr (list F)) := timing_loop 0 m shapes algs [].
End Timing.
