(** Model of truthdiscovery/input/matrix_dataset.py and of SupervisedData.from_csv (input/supervised_data.py:65-82). *)
From Verif Require Import Base Num Spec Dataset PyStr.

(** A masked 2-d array: its rows, a masked cell being None (so cells never hold NaN when they come from a CSV file). *)
Definition matrix (C : Type) := list (list (option C)).
(** sv[i, j]: None if masked or outside *)
Definition cell {C} (m : matrix C) (i j : nat) : option C :=
  match nth_error m i with Some row => match nth_error row j with Some c => c | None => None end | None => None end.

(** Reading and printing numbers is left to Python: [parse s] is float(s), where None is the ValueError, [Some None] is
    NaN and [Some (Some c)] any other float; [show c] is str(c). *)
Section Csv.
  Context {C : Type}.
  Variable parse : pystr -> option (option C).
  Variable show : C -> pystr.

  Inductive csv_err :=
  | Ragged (expected row got : nat)    (* "Expected {} entries in row {}, got {}" (matrix_dataset.py:27-28) *)
  | BadFloat (val : pystr).            (* ValueError of float(val) *)

  (** float(val) if val else np.nan; the mask is isnan (matrix_dataset.py:29-32) *)
  Definition read_cell (val : pystr) : res csv_err (option C) :=
    match val with
    | [] => Ok None
    | _ => match parse val with Some c => Ok c | None => Err (BadFloat val) end
    end.
  (** row = list(map(str.strip, line.split(","))) (matrix_dataset.py:24) *)
  Definition split_row (line : pystr) : list pystr := map strip (split_on comma line).
  (** the loop of csv_to_masked_array (matrix_dataset.py:21-29); [i] is the index of the next line *)
  Fixpoint csv_loop (i : nat) (width : option nat) (lines : list pystr) : res csv_err (matrix C) :=
    match lines with
    | [] => Ok []
    | line :: rest =>
        let row := split_row line in
        let entries w := r <- mapM read_cell row ;; m <- csv_loop (S i) (Some w) rest ;; Ok (r :: m) in
        match width with
        | None => entries (length row)
        | Some w => if Nat.eqb (length row) w then entries w else Err (Ragged w (i + 1) (length row))
        end
    end.
  (** csv_to_masked_array (matrix_dataset.py:9-33).  os.linesep is "\n" (POSIX). *)
  Definition csv_to_masked_array (text : pystr) : res csv_err (matrix C) := csv_loop 0 None (split_on newline (strip text)).

  (** MatrixDataset.to_csv (matrix_dataset.py:85-92) *)
  Definition show_cell (c : option C) : pystr := match c with None => [] | Some v => show v end.
  Definition to_csv (m : matrix C) : pystr := join [newline] (map (fun row => join [comma] (map show_cell row)) m).
End Csv.
Arguments csv_err : clear implicits.

Section MatrixDataset.
  Context {C W : Type} {EW : Eqb W} {F : Num}.
  (** the value of a cell as a label: floats that compare equal (0.0 and -0.0) are one label *)
  Variable label : C -> W.

  (** enumerate(l) *)
  Fixpoint enum_from {A} (i : nat) (l : list A) : list (nat * A) := match l with [] => [] | x :: t => (i, x) :: enum_from (S i) t end.
  (** MatrixDataset.get_triples (matrix_dataset.py:60-69) *)
  Definition get_triples (sv : matrix C) : list (nat * nat * W) :=
    flat_map (fun '(source, row) => flat_map (fun '(var, val) => match val with Some c => [(source, var, label c)] | None => [] end) (enum_from 0 row)) (enum_from 0 sv).
  (** MatrixDataset(sv, ...) (matrix_dataset.py:48-58); sv.ndim = 2 by its type.  The arguments after the matrix go to Dataset. *)
  Definition matrix_dataset (allow_multiple : bool) (impf : option (nat -> W -> W -> option F)) (sv : matrix C) : res (derr nat nat) (dataset nat nat W F) :=
    build allow_multiple impf (get_triples sv).

  Inductive load_err := InvalidCsv (e : csv_err) | DatasetError (e : derr nat nat).
  Definition lift_csv {A} (r : res csv_err A) : res load_err A := match r with Ok a => Ok a | Err e => Err (InvalidCsv e) end.
  Definition lift_ds {A} (r : res (derr nat nat) A) : res load_err A := match r with Ok a => Ok a | Err e => Err (DatasetError e) end.
  (** MatrixDataset.from_csv (matrix_dataset.py:71-83): every ValueError becomes "invalid matrix CSV: ...".  Returned with
      the matrix, which is the attribute sv. *)
  Definition matrix_from_csv (parse : pystr -> option (option C)) (text : pystr) : res load_err (matrix C * dataset nat nat W F) :=
    m <- lift_csv (csv_to_masked_array parse text) ;; d <- lift_ds (matrix_dataset false None m) ;; Ok (m, d).

  (** SupervisedData: the dataset (here with its matrix) and the known true values *)
  Definition true_values (row : list (option C)) : dict nat C :=
    flat_map (fun '(i, v) => match v with Some c => [(i, c)] | None => [] end) (enum_from 0 row).
  (** SupervisedData.from_csv (supervised_data.py:65-82).  The matrix read from a CSV text has at least one row. *)
  Definition supervised_from_csv (parse : pystr -> option (option C)) (text : pystr) : res load_err (dict nat C * matrix C * dataset nat nat W F) :=
    temp <- lift_csv (csv_to_masked_array parse text) ;;
    d <- lift_ds (matrix_dataset false None (tl temp)) ;;
    Ok (true_values (hd [] temp), tl temp, d).
End MatrixDataset.
