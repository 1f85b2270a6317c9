(** Model of the two clients: CommandLineClient.run_algorithm, generate_synthetic and generate_graph (client/cli.py:263-341) and
    WebClient.run (client/web/server.py:58-215). *)
From Coq Require Import NArith String.
From Verif Require Import Base Num Sparse Spec Dataset Iterators Algorithms Results PyStr Regex Matrix Supervised Client Graph.

Section Front.
  Context {C W : Type} {EW : Eqb W} {F : Num}.
  (** float(s) on CSV cells and on parameter values, and the label of a cell (as in Matrix.v, Client.v) *)
  Variable parse : pystr -> option (option C).
  Variable label : C -> W.
  Variable pfloat : pystr -> option F.
  Variable decimal : pychar -> option N.
  (** iteration order of the set of parameter names; < on values; random.choice *)
  Variable ord : list pystr -> list pystr.
  Variable ltw : W -> W -> bool.
  Variable rnd : nat -> nat.
  Notation data := (dataset nat nat W F).
  Notation result := (result nat nat W F).
  Notation cobj := (cobj F nat nat W).
  Notation params := (dict pystr (pvalue F)).

  (** alg.run(dataset) *)
  Definition crun (clock : nat -> F) (fuel : nat) (o : cobj) (d : data) : res aerr result * cobj :=
    match o with
    | OVoting => (voting_run clock d, OVoting)
    | OIterative o => let (r, o') := run clock fuel o d in (r, OIterative o')
    end.

  (** The iterator object made from the parameter string is one object, held by every iterative algorithm object made with these
      parameters: [cell] is its present state (None if there is no such parameter).  [deref] reads it, [store] is its state
      after the object has been used. *)
  Definition iterator_cell (all_params : params) : option (iterator F) :=
    match dget all_params (lit_str "iterator") with Some (PIterator it) => Some it | _ => None end.
  Definition deref (cell : option (iterator F)) (o : cobj) : cobj :=
    match cell, o with Some it, OIterative o => OIterative (AObj (o_alg o) (o_priors o) it (o_log o)) | _, _ => o end.
  Definition store (cell : option (iterator F)) (o : cobj) : option (iterator F) :=
    match cell, o with Some _, OIterative o => Some (o_it o) | _, _ => cell end.

  (** * Command line *)
  Record run_args := RunArgs {
    ra_classes : list cls;                           (* --algorithm *)
    ra_params : option (list (pystr * pvalue F));    (* --params, parsed by algorithm_parameter *)
    ra_text : pystr;                                 (* the file given as --dataset *)
    ra_supervised : bool;
    ra_sources : option (list Z);
    ra_variables : option (list Z);
    ra_fields : list field                           (* --output, never empty (nargs="+") *)
  }.
  Inductive crash := CrashClient (e : cerr) | CrashLoad (e : load_err) | CrashAlg (e : aerr) | CrashOutput (e : rerr) | CrashKeyError.
  Inductive outcome :=
  | Printed (out : dict pystr (dict field (outval nat nat W F)))   (* yaml.dump of this object on stdout, exit status 0 *)
  | UsageError                                                     (* parser.error: message on stderr, exit status 2 *)
  | Crashed (e : crash).                                           (* an exception that is not caught; nothing is printed on stdout *)

  (** labels are row and column numbers: a negative number is no label *)
  Definition label_list (l : list Z) : list nat := flat_map (fun z => if (z <? 0)%Z then [] else [Z.to_nat z]) l.

  (** the loop over args.alg_classes (cli.py:265-273): objects and warnings *)
  Fixpoint make_objects (all_params : params) (classes : list cls) : res cerr (list (cls * cobj) * list pystr) :=
    match classes with
    | [] => Ok ([], [])
    | c :: rest =>
        let (kept, ignored) := get_algorithm_params ord c all_params in
        o <- get_algorithm_object c kept ;;
        ' (os, ws) <- make_objects all_params rest ;;
        Ok ((c, o) :: os, match ignored with [] => ws | _ => ignored_message c ignored :: ws end)
    end.
  (** the loop over alg_objs (cli.py:288-299); [i] numbers the runs, each with a clock of its own *)
  Fixpoint run_objects (clocks : nat -> nat -> F) (fuel : nat) (args : run_args) (d : data) (sup : option (dict nat W)) (i : nat)
      (cell : option (iterator F)) (objs : list (cls * cobj)) (out : dict pystr (dict field (outval nat nat W F))) : outcome :=
    match objs with
    | [] => Printed out
    | (c, o) :: rest =>
        let (r, o') := crun (clocks i) fuel (deref cell o) d in
        match r with
        | Err e => Crashed (CrashAlg e)
        | Ok results =>
            let results := result_filter results (option_map label_list (ra_sources args)) (option_map label_list (ra_variables args)) in
            match label_of c with
            | None => Crashed CrashKeyError
            | Some l =>
                match get_output_obj ltw rnd results (Some (ra_fields args)) sup with
                | Err e => Crashed (CrashOutput e)
                | Ok obj => run_objects clocks fuel args d sup (S i) (store cell o') rest (dset out l obj)
                end
            end
        end
    end.
  (** run_algorithm (cli.py:263-298): the warnings printed on stderr, and the outcome *)
  Definition run_algorithm (clocks : nat -> nat -> F) (fuel : nat) (args : run_args) : list pystr * outcome :=
    let all_params := dict_of (match ra_params args with Some l => l | None => [] end) in
    match make_objects all_params (ra_classes args) with
    | Err e => ([], Crashed (CrashClient e))      (* the warnings before are not modelled in this case, which never happens *)
    | Ok (objs, warnings) =>
        (warnings,
         if ra_supervised args then
           match supervised_from_csv label parse (ra_text args) with
           | Err e => Crashed (CrashLoad e)
           | Ok (values, _, d) =>
               run_objects clocks fuel args d (Some (map (fun p => (fst p, label (snd p))) values)) 0 (iterator_cell all_params) objs []
           end
         else if mem FAccuracy (ra_fields args) then UsageError
         else
           match matrix_from_csv label parse (ra_text args) with
           | Err e => Crashed (CrashLoad e)
           | Ok (_, d) => run_objects clocks fuel args d None 0 (iterator_cell all_params) objs []
           end)
    end.

  (** ** generate_synthetic (cli.py:300-311); None is an omitted argument, for which SyntheticData has defaults
      (synthetic_data.py:14-15) *)
  Record synth_args := SynthArgs { sa_trust : list F; sa_num_vars : option Z; sa_claim_prob : option F; sa_domain_size : option Z }.
  Inductive synth_outcome := SynthPrinted (csv : pystr) | SynthUsage (e : syn_err) | SynthCrashed (e : syn_err).
  Definition generate_synthetic (show : nat -> pystr) (g : rng F) (args : synth_args) : synth_outcome :=
    match generate g (Trust1 (sa_trust args)) (dflt 100%Z (sa_num_vars args)) (dflt (lit 1 2) (sa_claim_prob args)) (dflt 4%Z (sa_domain_size args)) with
    | Ok (m, tv) => SynthPrinted (to_csv show (csv_matrix m (true_dict tv)))
    | Err SynIndex => SynthCrashed SynIndex       (* an IndexError is not caught *)
    | Err e => SynthUsage e
    end.

  (** ** generate_graph (cli.py:313-341): the entities drawn.  The PNG file made from them is not modelled. *)
  Record graph_args := GraphArgs { ga_width : option Z; ga_radius : option Z; ga_spacing : option Z; ga_font : option Z; ga_line_width : option Z; ga_border : option Z; ga_one_indexed : bool; ga_text : pystr }.
  Definition graph_sizes (a : graph_args) : sizes :=
    Sizes (dflt 800%Z (ga_width a)) (dflt 50%Z (ga_radius a)) (dflt 20%Z (ga_spacing a)) (dflt 3%Z (ga_line_width a)) (dflt 3%Z (ga_border a)) (dflt 15%Z (ga_font a)).
  Inductive graph_outcome := GraphDrawn (es : list (entity F)) | GraphUsage (e : load_err) | GraphCrashed (e : gerr).
  Variable T : trig F.
  Variable show_nat : nat -> pystr.
  Variable show_w : W -> pystr.
  Definition generate_graph (args : graph_args) : graph_outcome :=
    match matrix_from_csv label parse (ga_text args) with
    | Err e => GraphUsage e
    | Ok (_, d) =>
        let nm := matrix_naming show_nat show_w (negb (ga_one_indexed args)) in
        match snd (compile (fun _ => None) T (graph_sizes args) nm (RState (Some (get_height (graph_sizes args) d)) DefaultScheme) d None) with
        | Err e => GraphCrashed e
        | Ok es => GraphDrawn es
        end
    end.

  (** * Web *)
  (** JSON values, as json.loads gives them: numbers as numbers of the model, objects as dicts *)
  Inductive jval := JvNull | JvBool (b : bool) | JvNum (x : F) | JvStr (s : pystr) | JvArr (l : list jval) | JvObj (o : list (pystr * jval)).
  Variable loads : pystr -> option jval.               (* None: JSONDecodeError *)

  Inductive bad_previous := NotJson | MissingField (name : pystr).       (* ValueErrors of get_results_object *)
  Inductive escape :=
  | EClient (e : cerr) | EAlg (e : aerr) | EOutput (e : rerr) | EGraph (e : gerr)
  | EPrevType.                                        (* TypeError or AttributeError caused by the shape of previous_results *)
  Inductive bad_request := MissingArgs | BadParams (e : cerr) | BadMatrix (e : load_err) | BadLabel (e : cerr) | BadEmpty | BadPrevious (e : bad_previous).
  (** A result whose fields may be anything: Result(trust=obj["trust"], ...) *)
  Record raw_result := Raw { raw_trust : jval; raw_belief : jval; raw_time : jval; raw_iterations : jval }.
  (** get_results_object (server.py:72-92) *)
  Definition field_of (o : list (pystr * jval)) (name : string) : res bad_previous jval :=
    match dget o (lit_str name) with Some v => Ok v | None => Err (MissingField (lit_str name)) end.
  Definition raw_of (o : list (pystr * jval)) : res bad_previous raw_result :=
    t <- field_of o "trust" ;; b <- field_of o "belief" ;; u <- field_of o "time" ;; i <- field_of o "iterations" ;; Ok (Raw t b u i).

  (** Subtraction y - x where y is a number; bool is a number in Python; None is a TypeError *)
  Definition number (j : jval) : option F :=
    match j with JvNum x => Some x | JvBool b => Some (n_ofZ (if b then 1 else 0)) | _ => None end.
  Definition need {X} (o : option X) : res escape X := match o with Some x => Ok x | None => Err EPrevType end.
  Definition object_of (j : jval) : res escape (list (pystr * jval)) := match j with JvObj o => Ok o | _ => Err EPrevType end.
  Variable oset : list pystr -> list pystr.            (* iteration order of a set of strings *)
  Record web_diff := WebDiff { wd_trust : dict pystr F; wd_belief : dict pystr (dict pystr F); wd_time : F; wd_iterations : option F }.
  (** one of the two inner loops of ResultDiff (diff.py:15-16, 27-28) *)
  Definition raw_diff_scores (d1 : list (pystr * jval)) (d2 : dict pystr F) : res escape (dict pystr F) :=
    l <- mapM (fun k => match dget d1 k, dget d2 k with
                        | Some j, Some y => x <- need (number j) ;; Ok (k, n_sub y x)
                        | _, _ => Err EPrevType       (* never: k is a common key *)
                        end) (common oset (dkeys d1) (dkeys d2)) ;;
    Ok (dict_of l).
  (** the current results, to and from JSON: keys become strings *)
  Definition stringify (r : result) : dict pystr F * dict pystr (dict pystr F) :=
    (dict_of (map (fun p => (show_nat (fst p), snd p)) (r_trust r)),
     dict_of (map (fun p => (show_nat (fst p), dict_of (map (fun q => (show_w (fst q), snd q)) (snd p)))) (r_belief r))).
  (** ResultDiff(obj, current_results) (diff.py:7-33), where only the first may be ill-formed *)
  Definition raw_diff (prev : raw_result) (r : result) : res escape web_diff :=
    let (t2, b2) := stringify r in
    u <- need (number (raw_time prev)) ;;
    t1 <- object_of (raw_trust prev) ;;
    dt <- raw_diff_scores t1 t2 ;;
    b1 <- object_of (raw_belief prev) ;;
    db <- mapM (fun x => match dget b1 x, dget b2 x with
                         | Some j, Some m2 => m1 <- object_of j ;; diffs <- raw_diff_scores m1 m2 ;; Ok (x, diffs)
                         | _, _ => Err EPrevType
                         end) (common oset (dkeys b1) (dkeys b2)) ;;
    it <- match raw_iterations prev, r_iterations r with
          | JvNull, _ | _, None => Ok None
          | j, Some k => x <- need (number j) ;; Ok (Some (n_sub (n_ofZ (Z.of_nat k)) x))
          end ;;
    Ok (WebDiff dt (dict_of (filter (fun p : pystr * dict pystr F => match snd p with [] => false | _ => true end) db)) (n_sub (r_time r) u) it).

  (** the entry of one algorithm in the response *)
  Record web_entry := WebEntry {
    we_fields : dict field (outval nat nat W F);
    we_graph : drawing F;
    we_animation : option (F * list (drawing F));      (* fps and frames *)
    we_diff : option web_diff
  }.
  Record request := Request { q_algorithm : list pystr; q_matrix : option pystr; q_parameters : option pystr; q_previous : option pystr }.
  Inductive response :=
  | R200 (data : dict pystr web_entry) (messages : list pystr)
  | R400 (e : bad_request)                            (* a JSON object with "ok": false *)
  | R500                                              (* the same, for a ConvergenceError *)
  | Escaped (e : escape)                              (* an exception that the method does not catch *)
  | NoResponse.                                       (* the method does not return: the loop bound of the model was reached *)

  (** sizes of the graphs (server.py:94-103) *)
  Definition web_sizes : sizes := Sizes 800 40 20 3 3 20.
  Definition web_naming : naming nat nat W pystr pystr := matrix_naming show_nat show_w false.
  Definition underscore : pychar := 95%N.
  (** matrix_csv.replace("_", "") (server.py:139) *)
  Definition drop_underscores (s : pystr) : pystr := filter (fun c => negb (beq c underscore)) s.
  (** get_param_dict (server.py:59-70) *)
  Definition get_param_dict (params_str : option pystr) : res cerr params :=
    match params_str with
    | None => Ok []
    | Some s => items <- mapM (algorithm_parameter pfloat decimal) (split_on newline s) ;; Ok (dict_of items)
    end.
  Definition value_errorb (e : cerr) : bool := match e with FromIterator _ | UnexpectedKeyword | IllTyped => false | _ => true end.

  (** the body of the loop over the labels (server.py:149-211).  Either a response at once, or the message, the entry and the new
      state of the iterator. *)
  Definition one_label (clocks : nat -> nat -> F) (fuel : nat) (d : data) (all_params : params) (previous : option pystr) (i : nat) (cell : option (iterator F)) (alg_label : pystr)
      : sum response (option pystr * web_entry * option (iterator F)) :=
    let caught e := if value_errorb e then R400 (BadLabel e) else Escaped (EClient e) in
    match algorithm_cls alg_label with
    | Err e => inl (caught e)
    | Ok c =>
        let (kept, ignored) := get_algorithm_params ord c all_params in
        match get_algorithm_object c kept with
        | Err e => inl (caught e)
        | Ok o =>
            let msg := match ignored with [] => None | _ => Some (ignored_message c ignored) end in
            let (r, o1) := crun (clocks (2 * i)) fuel (deref cell o) d in
            match r with
            | Err ConvergenceError => inl R500
            | Err EmptyDatasetError => inl (R400 BadEmpty)
            | Err OutOfFuel => inl NoResponse
            | Err e => inl (Escaped (EAlg e))
            | Ok results =>
                match get_output_obj ltw rnd results None None with
                | Err e => inl (Escaped (EOutput e))
                | Ok fields =>
                    match snd (render (fun _ => None) T web_sizes web_naming (RState None (GradientScheme results)) d None) with
                    | Err e => inl (Escaped (EGraph e))
                    | Ok graph =>
                        let '(animation, o2) :=
                          match o1 with
                          | OVoting => (Ok None, o1)
                          | OIterative o1 =>
                              let '((_, o2), frames) := get_frames (fun _ => None) T web_sizes web_naming (clocks (2 * i + 1)) fuel (RState None DefaultScheme) o1 d false in
                              (match frames with Ok fs => Ok (Some (write_animation (lit 2 10) fs)) | Err e => Err e end, OIterative o2)
                          end in
                        match animation with
                        | Err (GAlgorithm OutOfFuel) => inl NoResponse
                        | Err e => inl (Escaped (EGraph e))
                        | Ok anim =>
                            let done diff := inr (msg, WebEntry fields graph anim diff, store cell o2) in
                            match previous with
                            | None => done None
                            | Some s =>
                                match loads s with
                                | None => inl (R400 (BadPrevious NotJson))
                                | Some (JvObj obj) =>
                                    match raw_of obj with
                                    | Err e => inl (R400 (BadPrevious e))
                                    | Ok prev => match raw_diff prev results with Ok df => done (Some df) | Err e => inl (Escaped e) end
                                    end
                                | Some _ => inl (Escaped EPrevType)       (* obj["trust"] on a list, string, number or null *)
                                end
                            end
                        end
                    end
                end
            end
        end
    end.
  Fixpoint label_loop (clocks : nat -> nat -> F) (fuel : nat) (d : data) (all_params : params) (previous : option pystr) (i : nat) (cell : option (iterator F)) (labels : list pystr)
      (out : dict pystr web_entry) (messages : list pystr) : response :=
    match labels with
    | [] => R200 out messages
    | l :: rest =>
        match one_label clocks fuel d all_params previous i cell l with
        | inl r => r
        | inr (msg, e, cell') => label_loop clocks fuel d all_params previous (S i) cell' rest (dset out l e) (messages ++ match msg with Some m => [m] | None => [] end)
        end
    end.
  (** run (server.py:117-213) *)
  Definition web_run (clocks : nat -> nat -> F) (fuel : nat) (q : request) : response :=
    match q_algorithm q, q_matrix q with
    | [], _ | _, None | _, Some [] => R400 MissingArgs
    | alg_labels, Some matrix_csv =>
        match get_param_dict (q_parameters q) with
        | Err e => if value_errorb e then R400 (BadParams e) else Escaped (EClient e)
        | Ok all_params =>
            match matrix_from_csv label parse (drop_underscores matrix_csv) with
            | Err e => R400 (BadMatrix e)
            | Ok (_, d) => label_loop clocks fuel d all_params (q_previous q) 0 (iterator_cell all_params) alg_labels [] []
            end
        end
    end.
End Front.

(** The data that the home page gives to the JavaScript client (server.py:105-115): the algorithms' labels with their display names, and
    the values of DistanceMeasures.  Rendering the template is not modelled. *)
Definition home_page : dict pystr pystr * list pystr :=
  (dict_of (map (fun p : pystr * cls => (fst p, class_name (snd p))) alg_labels), map fst measure_values).
