(** Model of the table editor of the web page: static/app/matrix.js, the part of MainformController that uses it
    (static/app/app.js:231-278) and the buttons of static/app/templates/form.html:31-97, 196-226 that call it. *)
From Coq Require Import NArith String.
From Verif Require Import Base PyStr Matrix.

Section Editor.
  (** the values a cell of the table can hold: JavaScript numbers other than NaN, 0 and -0 (which print alike) being one value.
      An empty cell is null, or undefined when the text typed in is not a valid entry of the number field: both are None. *)
  Context {C : Type}.
  (** parseFloat(s); None is NaN *)
  Variable parseFloat : pystr -> option C.
  (** c === 0 *)
  Variable is_zero : C -> bool.
  (** String(c) *)
  Variable show : C -> pystr.

  (** l.splice(i, 1), for an index that is not negative *)
  Definition splice1 {A} (i : nat) (l : list A) : list A := firstn i l ++ skipn (S i) l.
  (** addSource (matrix.js:10-16); None is the TypeError of entries[0].length on an empty table *)
  Definition add_source (m : matrix C) : option (matrix C) := match m with [] => None | r0 :: _ => Some (m ++ [map (fun _ => None) r0]) end.
  (** addVariable (matrix.js:18-22) *)
  Definition add_variable (m : matrix C) : matrix C := map (fun row => row ++ [None]) m.
  (** deleteSource (matrix.js:27-29) *)
  Definition delete_source (i : nat) (m : matrix C) : matrix C := splice1 i m.
  (** deleteVariable (matrix.js:34-38) *)
  Definition delete_variable (j : nat) (m : matrix C) : matrix C := map (splice1 j) m.
  (** clear (matrix.js:43-49) *)
  Definition clear_entries (m : matrix C) : matrix C := map (map (fun _ => None)) m.
  (** parseStringValue (matrix.js:51-53): NaN and 0 are false, so that "|| null" replaces both *)
  Definition parse_string_value (val : pystr) : option C := match parseFloat val with Some c => if is_zero c then None else Some c | None => None end.
  (** loadFromCSV (matrix.js:58-74); None is the exception "All rows must have the same length" *)
  Fixpoint load_rows (num_cols : nat) (lines : list pystr) : option (matrix C) :=
    match lines with
    | [] => Some []
    | line :: rest =>
        let row := split_on comma line in
        if Nat.eqb (length row) num_cols then option_map (cons (map parse_string_value row)) (load_rows num_cols rest) else None
    end.
  Definition load_from_csv (csv : pystr) : option (matrix C) :=
    let lines := split_on newline csv in load_rows (length (split_on comma (hd [] lines))) lines.
  (** asCSV (matrix.js:79-87): Array.join writes null and undefined as the empty string *)
  Definition as_csv (m : matrix C) : pystr := concat (map (fun row => join [comma] (map (show_cell show) row) ++ [newline]) m).

  (** ** The form (app.js:231-278): the table, the state of the dialogue for loading a CSV text, and what its text area holds *)
  Record form := Form { fm_matrix : matrix C; fm_open : bool; fm_error : bool; fm_textarea : pystr }.
  Inductive action :=
  | AddSource | AddVariable | DeleteSource (i : nat) | DeleteVariable (j : nat) | Clear
  | Enter (i j : nat) (v : option C)                  (* typing into a cell: ng-model of form.html:54 *)
  | ToggleDialog | TypeText (s : pystr) | LoadText   (* the dialogue of form.html:196-226 *)
  | LoadPreset (label : pystr).                       (* form.html:82-93 *)
  Variable presets : dict pystr (matrix C).           (* app.js:182-227 *)
  Definition set_matrix (f : form) (m : matrix C) : form := Form m (fm_open f) (fm_error f) (fm_textarea f).
  (** l[i] = x, for an index within the list *)
  Definition set_nth {A} (i : nat) (x : A) (l : list A) : list A := firstn i l ++ x :: skipn (S i) l.
  (** this.entries[i][j] = v; None is a TypeError *)
  Definition enter (i j : nat) (v : option C) (m : matrix C) : option (matrix C) :=
    match nth_error m i with Some row => Some (set_nth i (set_nth j v row) m) | None => None end.
  (** what an action does; None is an exception *)
  Definition act (a : action) (f : form) : option form :=
    match a with
    | AddSource => option_map (set_matrix f) (add_source (fm_matrix f))
    | AddVariable => Some (set_matrix f (add_variable (fm_matrix f)))
    | DeleteSource i => Some (set_matrix f (delete_source i (fm_matrix f)))
    | DeleteVariable j => Some (set_matrix f (delete_variable j (fm_matrix f)))
    | Clear => Some (set_matrix f (clear_entries (fm_matrix f)))
    | Enter i j v => option_map (set_matrix f) (enter i j v (fm_matrix f))
    | ToggleDialog => Some (Form (fm_matrix f) (negb (fm_open f)) false (fm_textarea f))     (* toggleCsvDialog (app.js:243-246) *)
    | TypeText s => Some (Form (fm_matrix f) (fm_open f) (fm_error f) s)
    | LoadText =>                                                                             (* loadFromCSV (app.js:248-256) *)
        match load_from_csv (fm_textarea f) with
        | Some m => Some (Form m false (fm_error f) (fm_textarea f))
        | None => Some (Form (fm_matrix f) (fm_open f) true (fm_textarea f))
        end
    | LoadPreset l =>                                                                         (* loadPresetDataset (app.js:261-278) *)
        match l with
        | [] => Some f
        | _ => option_map (set_matrix f) (dget presets l)
        end
    end.
  (** what the page offers: the crosses next to a row or column are shown if there are at least two (form.html:39, 50), there is an
      input for every cell (form.html:45-57), the presets are listed (form.html:82-89) *)
  Definition offered (f : form) (a : action) : bool :=
    match a with
    | DeleteSource i => (1 <? length (fm_matrix f)) && (i <? length (fm_matrix f))
    | DeleteVariable j => (1 <? length (hd [] (fm_matrix f))) && (j <? length (hd [] (fm_matrix f)))
    | Enter i j _ => match nth_error (fm_matrix f) i with Some row => j <? length row | None => false end
    | TypeText _ | LoadText => fm_open f
    | LoadPreset l => mem l ([] :: dkeys presets)
    | _ => true
    end.
End Editor.
Arguments action : clear implicits. Arguments form : clear implicits.

(** The built-in datasets (app.js:182-227) *)
Definition preset_datasets {C} (num : nat -> C) : dict pystr (matrix C) :=
  let o := None in let n k := Some (num k) in
  [(lit_str "standard", [[n 1; o; n 3; n 4]; [n 2; n 2; o; o]; [o; o; n 5; n 2]; [n 1; n 2; n 5; o]]);
   (lit_str "all_but_one_agree", [[n 1; n 2; n 3; n 4]; [n 1; n 2; n 3; n 4]; [n 1; n 2; n 3; n 4]; [n 9; n 8; n 7; n 6]]);
   (lit_str "indep_groups", [[n 1; n 2; o; o]; [n 1; n 3; o; o]; [o; o; n 11; n 12]; [o; o; n 10; o]]);
   (lit_str "no_agreement", [[o; n 2; n 3]; [n 4; n 5; o]; [o; n 8; n 9]; [n 10; n 11; n 12]])].
(** The form when the page is opened (app.js:228-235, 300): the first preset *)
Definition new_form {C} (num : nat -> C) : form C :=
  Form (match preset_datasets num with (_, m) :: _ => m | [] => [] end) false false [].
