(** Model of truthdiscovery/input/file_helpers.py and of the two loaders built on it in truthdiscovery/examples/real-world-datasets. *)
From Coq Require Import NArith String.
From Verif Require Import Base Num Spec Dataset PyStr Matrix.

(** What a generator yields, and the exception it ends in (None: it ends normally).  The file is given by its text; exceptions of open()
    and of decoding are not modelled, and lines end in "\n" (text mode translates other line ends before). *)
Definition gen (A E : Type) : Type := list A * option E.

Section FileHelpers.
  Context {S V W : Type} {ES : Eqb S} {EV : Eqb V} {EW : Eqb W} {F : Num} {E : Type}.
  Inductive file_err := OfDataset (e : derr S V) | OfReader (e : E) | NotImplemented.
  (** FileDataset.__init__ (file_helpers.py:10-15).  [get_tuples] is the method of the subclass; None is the method of FileDataset itself
      (lines 17-25).  The Dataset constructor takes the tuples one by one, so a repeated claim that it does not allow is reported before an
      exception of the reader that comes later. *)
  Definition file_dataset (get_tuples : option (pystr -> gen (S * V * W) E)) (allow_multiple : bool) (impf : option (V -> W -> W -> option F)) (text : pystr) : res file_err (dataset S V W F) :=
    match get_tuples with
    | None => Err NotImplemented
    | Some g =>
        match g text with
        | (ts, None) => match build allow_multiple impf ts with Ok d => Ok d | Err e => Err (OfDataset e) end
        | (ts, Some e) => match dloop allow_multiple dinit ts with Err e' => Err (OfDataset e') | Ok _ => Err (OfReader e) end
        end
    end.
  (** FileSupervisedData.__init__ (file_helpers.py:32-41): the values of the SupervisedData object *)
  Definition file_values (get_pairs : option (pystr -> gen (V * W) E)) (text : pystr) : res file_err (dict V W) :=
    match get_pairs with
    | None => Err NotImplemented
    | Some g => match g text with (ps, None) => Ok (dict_of ps) | (_, Some e) => Err (OfReader e) end
    end.
End FileHelpers.
Arguments file_err : clear implicits.

(** ** TsvDataset (truthdiscovery/examples/real-world-datasets/tsv_dataset.py:7-29) *)
Definition tab : pychar := 9%N.
(** for line in fileobj: lines keep their "\n" *)
Fixpoint file_lines (s : pystr) : list pystr :=
  match s with
  | [] => []
  | c :: t => if N.eqb c newline then [c] :: file_lines t else match file_lines t with [] => [[c]] | l :: r => (c :: l) :: r end
  end.
(** source, variable, *val = line.split("\t") (line 20); None is the ValueError, after which the line is skipped (21-24) *)
Definition tsv_tuple (line : pystr) : option (pystr * pystr * list pystr) :=
  match split_on tab line with source :: variable :: val => Some (source, variable, val) | _ => None end.
Definition tsv_tuples (text : pystr) : gen (pystr * pystr * list pystr) Empty_set :=
  (flat_map (fun l => match tsv_tuple l with Some t => [t] | None => [] end) (file_lines text), None).
(** the line numbers in the "malformed input" messages (22-23) *)
Definition tsv_messages (text : pystr) : list nat :=
  flat_map (fun il => match tsv_tuple (snd il) with Some _ => [] | None => [fst il] end) (enum_from 0 (file_lines text)).
(** TsvDataset(path) (lines 14-15) *)
Definition tsv_dataset {F : Num} (text : pystr) : res (file_err pystr pystr Empty_set) (dataset pystr pystr (list pystr) F) :=
  file_dataset (Some tsv_tuples) true None text.

(** ** StockBase, StockDataset, SupervisedStockData (truthdiscovery/examples/real-world-datasets/stock/stock_dataset.py:23-67) *)
Section Stock.
  (** str() of an int *)
  Variable show_nat : nat -> pystr.
  (** the rows that csv.reader(fileobj, delimiter="\t") yields (lines 28-29); csv.Error is not modelled *)
  Variable tsv_reader : pystr -> list (list pystr).
  Inductive stock_err := UnpackError.   (* ValueError: not enough values to unpack *)

  (** get_variable_name (31-32) *)
  Definition variable_name (symbol date : pystr) (i : nat) : pystr := symbol ++ lit_str "_" ++ date ++ lit_str "_attr_" ++ show_nat i.
  (** value.replace(char, "") *)
  Definition remove_char (value : pystr) (c : pychar) : pystr := filter (fun x => negb (N.eqb x c)) value.
  (** clean_value (34-38) *)
  Definition clean_value (value : pystr) : pystr := strip (fold_left remove_char (lit_str "$%+-") value).
  (** get_var_vals (40-51); None is the ValueError of the unpacking in line 45 *)
  Definition var_vals (row : list pystr) (date : pystr) : option (list (pystr * pystr)) :=
    match row with
    | [] => None
    | symbol :: attributes => Some (flat_map (fun '(i, attr) => match clean_value attr with [] => [] | val => [(variable_name symbol date i, val)] end) (enum_from 0 attributes))
    end.
  (** StockDataset.get_tuples (54-59) *)
  Fixpoint stock_rows (rows : list (list pystr)) : gen (pystr * pystr * pystr) stock_err :=
    match rows with
    | [] => ([], None)
    | row :: rest =>
        match row with
        | date :: source :: r =>
            match var_vals r date with
            | Some vvs => let (ts, e) := stock_rows rest in (map (fun '(var, val) => (source, var, val)) vvs ++ ts, e)
            | None => ([], Some UnpackError)
            end
        | _ => ([], Some UnpackError)
        end
    end.
  Definition stock_tuples (text : pystr) : gen (pystr * pystr * pystr) stock_err := stock_rows (tsv_reader text).
  (** SupervisedStockData.get_pairs (62-66) *)
  Fixpoint stock_truth (rows : list (list pystr)) : gen (pystr * pystr) stock_err :=
    match rows with
    | [] => ([], None)
    | row :: rest =>
        match row with
        | date :: r =>
            match var_vals r date with
            | Some vvs => let (ts, e) := stock_truth rest in (vvs ++ ts, e)
            | None => ([], Some UnpackError)
            end
        | [] => ([], Some UnpackError)
        end
    end.
  Definition stock_dataset {F : Num} (text : pystr) : res (file_err pystr pystr stock_err) (dataset pystr pystr pystr F) := file_dataset (Some stock_tuples) false None text.
  Definition stock_values (text : pystr) : res (file_err pystr pystr stock_err) (dict pystr pystr) := file_values (Some (fun t => stock_truth (tsv_reader t))) text.
End Stock.
