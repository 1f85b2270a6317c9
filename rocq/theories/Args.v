(** Model of CommandLineClient.make_argparse_type, get_parser and run (client/cli.py:27-261): how options become the arguments of
    the run, synth and graph commands.  The splitting of the command line into options (argparse's tokeniser: abbreviations,
    "--opt=value", "-ovalue") is not modelled: a command line is the sequence of the options it holds, each with its values. *)
From Coq Require Import NArith String.
From Verif Require Import Base Num Spec Dataset Iterators Algorithms Results PyStr Regex Matrix Supervised Client Graph Front Png.

Section Args.
  Context {C W : Type} {EW : Eqb W} {F : Num}.
  (** as in Front.v *)
  Variable parse : pystr -> option (option C).
  Variable label : C -> W.
  Variable pfloat : pystr -> option F.
  Variable decimal : pychar -> option N.
  Variable ord : list pystr -> list pystr.
  Variable ltw : W -> W -> bool.
  Variable rnd : nat -> nat.
  (** int(s); None is its ValueError *)
  Variable pint : pystr -> option Z.

  (** What becomes of the value of an option: argparse turns ValueError (by make_argparse_type, cli.py:27-39, or by itself) into
      parser.error; any other exception is not caught. *)
  Inductive failure := Refused | Uncaught (e : cerr).
  Definition argparse_type {A} (r : res cerr A) : res failure A :=
    match r with
    | Ok a => Ok a
    | Err (FromIterator e) => Err (Uncaught (FromIterator e))
    | Err UnexpectedKeyword => Err (Uncaught UnexpectedKeyword)
    | Err IllTyped => Err (Uncaught IllTyped)
    | Err _ => Err Refused
    end.
  Definition plain {A} (r : option A) : res failure A := match r with Some a => Ok a | None => Err Refused end.
  (** nargs="+": at least one value; the values are converted in order *)
  Definition one_or_more {A} (conv : pystr -> res failure A) (values : list pystr) : res failure (list A) :=
    match values with [] => Err Refused | _ => mapM conv values end.
  (** OutputFields(s): lookup by value (client/base.py:25-36) *)
  Definition output_field_values : list (pystr * field) :=
    [(lit_str "accuracy", FAccuracy); (lit_str "belief", FBelief); (lit_str "belief_stats", FBeliefStats); (lit_str "iterations", FIterations);
     (lit_str "most_believed_values", FMostBelieved); (lit_str "time", FTime); (lit_str "trust", FTrust); (lit_str "trust_stats", FTrustStats)].
  Definition field_of (s : pystr) : option field := dget output_field_values s.

  (** ** The run command (cli.py:50-148) *)
  Inductive run_option :=
  | RAlgorithm (values : list pystr)      (* -a, --algorithm *)
  | RParams (values : list pystr)         (* -p, --params *)
  | RDataset (path : pystr)               (* -f, --dataset *)
  | RSupervised                           (* -s, --supervised *)
  | RSources (values : list pystr)        (* --sources *)
  | RVariables (values : list pystr)      (* --variables *)
  | ROutput (values : list pystr).        (* -o, --output *)
  (** the namespace that parse_args fills in; None: not given (yet) *)
  Record run_space := RunSpace {
    rs_alg_classes : option (list cls);
    rs_alg_params : option (list (pystr * pvalue F));
    rs_dataset : option pystr;
    rs_supervised : bool;
    rs_sources : option (list Z);
    rs_variables : option (list Z);
    rs_output_fields : list field
  }.
  (** the defaults (cli.py:143-146) *)
  Definition run_space0 : run_space := RunSpace None None None false None None [FTrust; FBelief; FIterations; FTime].
  (** The files: what a path holds; None if there is no file there that can be opened for reading (argparse.FileType("r")). *)
  Definition files := pystr -> option pystr.
  (** an option replaces what an earlier one of the same name has stored *)
  Definition run_take (fs : files) (ns : run_space) (o : run_option) : res failure run_space :=
    let '(RunSpace a p d s so va f) := ns in
    match o with
    | RAlgorithm l => v <- one_or_more (fun x => argparse_type (algorithm_cls x)) l ;; Ok (RunSpace (Some v) p d s so va f)
    | RParams l => v <- one_or_more (fun x => argparse_type (algorithm_parameter pfloat decimal x)) l ;; Ok (RunSpace a (Some v) d s so va f)
    | RDataset path => v <- plain (fs path) ;; Ok (RunSpace a p (Some v) s so va f)
    | RSupervised => Ok (RunSpace a p d true so va f)
    | RSources l => v <- one_or_more (fun x => plain (pint x)) l ;; Ok (RunSpace a p d s (Some v) va f)
    | RVariables l => v <- one_or_more (fun x => plain (pint x)) l ;; Ok (RunSpace a p d s so (Some v) f)
    | ROutput l => v <- one_or_more (fun x => plain (field_of x)) l ;; Ok (RunSpace a p d s so va v)
    end.
  Fixpoint take_all {N O} (take : N -> O -> res failure N) (ns : N) (os : list O) : res failure N :=
    match os with [] => Ok ns | o :: rest => ns' <- take ns o ;; take_all take ns' rest end.
  (** parse_args: the options in order, then the check that the required ones were given (cli.py:65, 91) *)
  Definition run_parse (fs : files) (os : list run_option) : res failure run_args :=
    ns <- take_all (run_take fs) run_space0 os ;;
    match rs_alg_classes ns, rs_dataset ns with
    | Some classes, Some text => Ok (RunArgs classes (rs_alg_params ns) text (rs_supervised ns) (rs_sources ns) (rs_variables ns) (rs_output_fields ns))
    | _, _ => Err Refused
    end.
  (** run (cli.py:248-253) for "run": what is printed on stderr, and the outcome *)
  Definition cli_run (clocks : nat -> nat -> F) (fuel : nat) (fs : files) (os : list run_option) : list pystr * outcome (F:=F) (W:=W) :=
    match run_parse fs os with
    | Ok args => run_algorithm parse label ord ltw rnd clocks fuel args
    | Err Refused => ([], UsageError)
    | Err (Uncaught e) => ([], Crashed (CrashClient e))
    end.

  (** ** The synth command (cli.py:150-187) *)
  Inductive synth_option := STrust (values : list pystr) | SNumVars (value : pystr) | SClaimProb (value : pystr) | SDomainSize (value : pystr).
  Record synth_space := SynthSpace { ss_trust : option (list F); ss_num_vars : option Z; ss_claim_prob : option F; ss_domain_size : option Z }.
  Definition synth_take (ns : synth_space) (o : synth_option) : res failure synth_space :=
    let '(SynthSpace t n c d) := ns in
    match o with
    | STrust l => v <- one_or_more (fun x => plain (pfloat x)) l ;; Ok (SynthSpace (Some v) n c d)
    | SNumVars x => v <- plain (pint x) ;; Ok (SynthSpace t (Some v) c d)
    | SClaimProb x => v <- plain (pfloat x) ;; Ok (SynthSpace t n (Some v) d)
    | SDomainSize x => v <- plain (pint x) ;; Ok (SynthSpace t n c (Some v))
    end.
  Definition synth_parse (os : list synth_option) : res failure (synth_args (F:=F)) :=
    ns <- take_all synth_take (SynthSpace None None None None) os ;;
    match ss_trust ns with Some t => Ok (SynthArgs t (ss_num_vars ns) (ss_claim_prob ns) (ss_domain_size ns)) | None => Err Refused end.
  (** run (cli.py:254-255) for "synth" *)
  Inductive synth_result := SynthPrints (text : pystr) | SynthRefused | SynthCrashes (e : syn_err + cerr).
  Definition cli_synth (show : nat -> pystr) (g : rng F) (os : list synth_option) : synth_result :=
    match synth_parse os with
    | Ok args =>
        match generate_synthetic show g args with
        | SynthPrinted csv => SynthPrints (csv ++ [newline])       (* print adds a newline *)
        | SynthUsage _ => SynthRefused
        | SynthCrashed e => SynthCrashes (inl e)
        end
    | Err Refused => SynthRefused
    | Err (Uncaught e) => SynthCrashes (inr e)
    end.

  (** ** The graph command (cli.py:188-245), with its effect on files *)
  Inductive graph_option :=
  | GDataset (path : pystr) | GOutfile (path : pystr)
  | GWidth (value : pystr) | GNodeRadius (value : pystr) | GSpacing (value : pystr) | GFontSize (value : pystr) | GLineWidth (value : pystr) | GNodeBorderWidth (value : pystr)
  | GOneIndexed.
  Definition put (fs : files) (path text : pystr) : files := fun p => if beq p path then Some text else fs p.
  (** whether a path can be opened for writing.  Simplification: the path "-" (standard input or output) is not treated specially, and the
      file written can be read again. *)
  Variable writable : pystr -> bool.
  Record graph_space := GraphSpace {
    gs_dataset : option pystr; gs_outfile : option pystr;          (* open files, by path *)
    gs_width : option Z; gs_radius : option Z; gs_spacing : option Z; gs_font : option Z; gs_line_width : option Z; gs_border : option Z;
    gs_one_indexed : bool
  }.
  Definition graph_space0 : graph_space := GraphSpace None None None None None None None None false.
  Definition graph_take (st : files * graph_space) (o : graph_option) : res failure (files * graph_space) :=
    let (fs, ns) := st in
    let '(GraphSpace d u w r s f l b i) := ns in
    match o with
    | GDataset path => match fs path with Some _ => Ok (fs, GraphSpace (Some path) u w r s f l b i) | None => Err Refused end
    | GOutfile path => if writable path then Ok (put fs path [], GraphSpace d (Some path) w r s f l b i) else Err Refused    (* mode "wb" truncates *)
    | GWidth x => v <- plain (pint x) ;; Ok (fs, GraphSpace d u (Some v) r s f l b i)
    | GNodeRadius x => v <- plain (pint x) ;; Ok (fs, GraphSpace d u w (Some v) s f l b i)
    | GSpacing x => v <- plain (pint x) ;; Ok (fs, GraphSpace d u w r (Some v) f l b i)
    | GFontSize x => v <- plain (pint x) ;; Ok (fs, GraphSpace d u w r s (Some v) l b i)
    | GLineWidth x => v <- plain (pint x) ;; Ok (fs, GraphSpace d u w r s f (Some v) b i)
    | GNodeBorderWidth x => v <- plain (pint x) ;; Ok (fs, GraphSpace d u w r s f l (Some v) i)
    | GOneIndexed => Ok (fs, GraphSpace d u w r s f l b true)
    end.
  (** the files as the first option that is refused leaves them *)
  Fixpoint graph_take_all (st : files * graph_space) (os : list graph_option) : files * res failure graph_space :=
    match os with
    | [] => (fst st, Ok (snd st))
    | o :: rest => match graph_take st o with Ok st' => graph_take_all st' rest | Err e => (fst st, Err e) end
    end.
  Variable T : trig F.
  Variable show_nat : nat -> pystr.
  Variable show_w : W -> pystr.
  (** cairo's sizes of texts, and the PNG file of a picture, as text *)
  Variable text_extents : F -> pystr -> extents F.
  Variable png : picture F -> pystr.
  Inductive graph_result := GraphSaved | GraphRefused | GraphCrashes (e : perr + cerr).
  (** run (cli.py:256-257) and generate_graph (cli.py:333-341) for "graph".  The dataset is read after all options have been processed. *)
  Definition cli_graph (fs : files) (os : list graph_option) : files * graph_result :=
    match graph_take_all (fs, graph_space0) os with
    | (fs, Err Refused) => (fs, GraphRefused)
    | (fs, Err (Uncaught e)) => (fs, GraphCrashes (inr e))
    | (fs, Ok ns) =>
        match gs_dataset ns, gs_outfile ns with
        | Some path, Some out =>
            let text := match fs path with Some t => t | None => [] end in
            let args := GraphArgs (gs_width ns) (gs_radius ns) (gs_spacing ns) (gs_font ns) (gs_line_width ns) (gs_border ns) (gs_one_indexed ns) text in
            match matrix_from_csv label parse text with
            | Err _ => (fs, GraphRefused)
            | Ok (_, d) =>
                match snd (render_png (fun _ => None) T (graph_sizes args) (matrix_naming show_nat show_w (negb (ga_one_indexed args))) text_extents (RState None DefaultScheme) d None) with
                | Err e => (fs, GraphCrashes (inl e))
                | Ok p => (put fs out (png p), GraphSaved)
                end
            end
        | _, _ => (fs, GraphRefused)
        end
    end.

  (** ** The dispatch (cli.py:248-261).  "httpd" starts the debug server, which is not modelled. *)
  Inductive command := NoCommand | Run (os : list run_option) | Synth (os : list synth_option) | MakeGraph (os : list graph_option) | Httpd.
  Inductive effect := Help | RunEffect (stderr : list pystr) (o : outcome (F:=F) (W:=W)) | SynthEffect (r : synth_result) | GraphEffect (fs : files) (r : graph_result) | ServerStarted.
  Definition cli (clocks : nat -> nat -> F) (fuel : nat) (show : nat -> pystr) (g : rng F) (fs : files) (c : command) : effect :=
    match c with
    | Run os => let (w, o) := cli_run clocks fuel fs os in RunEffect w o
    | Synth os => SynthEffect (cli_synth show g os)
    | MakeGraph os => let (fs', r) := cli_graph fs os in GraphEffect fs' r
    | Httpd => ServerStarted
    | NoCommand => Help
    end.
End Args.
