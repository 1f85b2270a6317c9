(** Model of main of examples/convergence_test.py (33-79): which distances are plotted for which algorithm.  The calls of
    matplotlib are not modelled; the result is what is given to ax.semilogy. *)
From Coq Require Import String.
From Verif Require Import Base Num Spec Dataset Iterators Algorithms PyStr Matrix.

Section ConvTest.
  Context {C W : Type} {EW : Eqb W} {F : Num}.
  Variable label : C -> W.
  Variable parse : pystr -> option (option C).   (* float() for the cells of the CSV file *)
  Variable show_nat : nat -> pystr.              (* str() of an int *)
  Variable show : F -> pystr.                    (* str() of a float *)
  Variable float : pystr -> option F.            (* float(); None is the ValueError *)

  (** ALGORITHMS (convergence_test.py:29), by class name *)
  Definition ct_algorithms : list (pystr * alg F) :=
    [(lit_str "Sums"%string, Sums); (lit_str "AverageLog"%string, AverageLog); (lit_str "Investment"%string, mk_investment None);
     (lit_str "PooledInvestment"%string, mk_pooled None); (lit_str "TruthFinder"%string, mk_truthfinder None None None)].
  (** iterator (convergence_test.py:49): one object for all algorithms *)
  Definition ct_iterator : iterator F := mk_conv L2 (Some (n_ofZ 0)) (Some 100%Z).

  Inductive ct_err := CLoad (e : load_err) | CAlg (e : aerr) | CValue.   (* CValue: ValueError of the unpacking or of float *)

  (** print("{},{}".format(...)) (iterator.py:112), for all lines printed *)
  Definition debug_text (out : list (nat * F)) : pystr := flat_map (fun l => show_nat (fst l) ++ comma :: show (snd l) ++ [newline]) out.
  (** the loop over the lines of stdout (convergence_test.py:63-67) *)
  Definition read_line (line : pystr) : res ct_err F :=
    match split_on comma line with
    | [_; dist] => match float dist with Some x => Ok x | None => Err CValue end
    | _ => Err CValue
    end.
  Definition read_output (text : pystr) : res ct_err (list F) :=
    mapM read_line (filter (fun line => match line with [] => false | _ => true end) (split_on newline text)).

  (** the loop over the algorithms (convergence_test.py:50-67); [clocks j] is the clock during the run of the j-th *)
  Fixpoint ct_loop (clocks : nat -> nat -> F) (fuel : nat) (d : dataset nat nat W F) (j : nat) (algs : list (pystr * alg F)) (it : iterator F)
      (distances : dict pystr (list F)) : res ct_err (dict pystr (list F)) :=
    match algs with
    | [] => Ok distances
    | (name, a) :: rest =>
        let o := mk_obj a (Some it) None in
        let (r, o') := run (clocks j) fuel o d in
        match r with
        | Ok _ | Err ConvergenceError =>
            dists <- read_output (debug_text (debug_output (clocks j) fuel o d)) ;;
            ct_loop clocks fuel d (S j) rest (o_it o') (dset distances name dists)
        | Err e => Err (CAlg e)
        end
    end.
  (** padding to the greatest length (convergence_test.py:69-74) *)
  Definition pad (n : nat) (dists : list F) : list (option F) := map Some dists ++ repeat None (n - length dists).
  Definition ct_plot (distances : dict pystr (list F)) : list (pystr * list (option F)) :=
    let max_its := list_max (map (fun p => length (snd p)) distances) in
    map (fun p => (fst p, pad max_its (snd p))) distances.
  (** main (convergence_test.py:33-79) *)
  Definition convergence_test (clocks : nat -> nat -> F) (fuel : nat) (text : pystr) : res ct_err (list (pystr * list (option F))) :=
    match supervised_from_csv label parse text with
    | Err e => Err (CLoad e)
    | Ok (_, _, d) => distances <- ct_loop clocks fuel d 0 ct_algorithms ct_iterator [] ;; Ok (ct_plot distances)
    end.
End ConvTest.
