(** * C85, C86, C87: the table editor of the web page *)
From Coq Require Import NArith String Lia.
From Verif Require Import Base Num Spec Dataset DatasetRep PyStr Matrix PropsMatrix WebForm Front FrontRep PropsWeb.

(** a table with r rows and c columns *)
Definition table {C} (r c : nat) (m : matrix C) : Prop := length m = r /\ forall row, In row m -> length row = c.

Section Lists.
  Lemma nth_splice1 {A} (i k : nat) (l : list A) : i < length l -> nth_error (splice1 i l) k = nth_error l (if k <? i then k else S k).
  Proof.
    intros H. unfold splice1. destruct (Nat.ltb_spec k i) as [L|L].
    - rewrite nth_error_app1 by (rewrite firstn_length; lia). rewrite <- (firstn_skipn i l) at 2. rewrite nth_error_app1 by (rewrite firstn_length; lia). reflexivity.
    - rewrite nth_error_app2 by (rewrite firstn_length; lia). rewrite firstn_length, Nat.min_l by lia. rewrite <- (firstn_skipn (S i) l) at 2.
      rewrite nth_error_app2 by (rewrite firstn_length; lia). f_equal. rewrite firstn_length, Nat.min_l by lia. lia.
  Qed.
  Lemma splice1_length {A} i (l : list A) : i < length l -> length (splice1 i l) = length l - 1.
  Proof. intros H. unfold splice1. rewrite app_length, firstn_length, skipn_length. lia. Qed.
  Lemma splice1_In {A} i (l : list A) x : In x (splice1 i l) -> In x l.
  Proof. intros H. unfold splice1 in H. apply in_app_or in H. destruct H as [H|H]; [|rewrite <- (firstn_skipn (S i) l); apply in_or_app; now right]. rewrite <- (firstn_skipn i l). apply in_or_app. now left. Qed.
  Lemma nth_set_nth {A} i (x : A) l k : i < length l -> nth_error (set_nth i x l) k = if k =? i then Some x else nth_error l k.
  Proof.
    intros H. unfold set_nth. destruct (Nat.eqb_spec k i) as [->|N].
    - rewrite nth_error_app2 by (rewrite firstn_length; lia). rewrite firstn_length, Nat.min_l, Nat.sub_diag by lia. reflexivity.
    - destruct (Nat.ltb_spec k i) as [L|L].
      + rewrite nth_error_app1 by (rewrite firstn_length; lia). rewrite <- (firstn_skipn i l) at 2. rewrite nth_error_app1 by (rewrite firstn_length; lia). reflexivity.
      + rewrite nth_error_app2 by (rewrite firstn_length; lia). rewrite firstn_length, Nat.min_l by lia. replace (k - i) with (S (k - S i)) by lia. cbn [nth_error].
        rewrite <- (firstn_skipn (S i) l) at 2. rewrite nth_error_app2 by (rewrite firstn_length; lia). f_equal. rewrite firstn_length, Nat.min_l by lia. reflexivity.
  Qed.
  Lemma set_nth_length {A} i (x : A) l : i < length l -> length (set_nth i x l) = length l.
  Proof. intros H. unfold set_nth. rewrite app_length. cbn [length]. rewrite firstn_length, skipn_length. lia. Qed.
  Lemma set_nth_In {A} i (x y : A) l : In y (set_nth i x l) -> y = x \/ In y l.
  Proof.
    unfold set_nth. intros H. apply in_app_or in H. destruct H as [H|[H|H]]; [right|left; now symmetry|right]; [rewrite <- (firstn_skipn i l)|rewrite <- (firstn_skipn (S i) l)]; apply in_or_app; auto.
  Qed.
End Lists.

Section Editor.
  Context {C : Type}.
  Variable parseFloat : pystr -> option C.
  Variable is_zero : C -> bool.
  Variable presets : dict pystr (matrix C).
  Notation form := (form C).
  Notation action := (action C).
  Notation act := (act parseFloat is_zero presets).
  Notation offered := (offered presets).
  Notation load := (load_from_csv parseFloat is_zero).

  (** ** C85 *)
  (** [session f0 acts f]: the user, starting from the form f0, has done [acts], each of which the page offered, and the form is now f *)
  Inductive session (f0 : form) : list action -> form -> Prop :=
  | opened : session f0 [] f0
  | acted acts a f f' : session f0 acts f -> offered f a = true -> act a f = Some f' -> session f0 (acts ++ [a]) f'.
  (** a form shows a table with at least one source and one variable *)
  Definition sound (f : form) : Prop := exists r c, 1 <= r /\ 1 <= c /\ table r c (fm_matrix f).
  Definition sound_presets : Prop := forall l m, dget presets l = Some m -> exists r c, 1 <= r /\ 1 <= c /\ table r c m.

  (** loading *)
  Lemma load_rows_spec n lines : 
    (forall line, In line lines -> length (split_on comma line) = n) /\ load_rows parseFloat is_zero n lines = Some (map (fun line => map (parse_string_value parseFloat is_zero) (split_on comma line)) lines) \/
    (exists line, In line lines /\ length (split_on comma line) <> n) /\ load_rows parseFloat is_zero n lines = None.
  Proof.
    induction lines as [|line lines IH]; [left; split; [intros ? []|reflexivity]|]. cbn [load_rows]. destruct (Nat.eqb_spec (length (split_on comma line)) n) as [L|L].
    - destruct IH as [[H ->]|[(l & H1 & H2) ->]]; [left; split; [intros x [<-|Hx]; auto|reflexivity]|right; split; [exists l; split; [now right|exact H2]|reflexivity]].
    - right. split; [exists line; split; [now left|exact L]|reflexivity].
  Qed.
  Lemma load_sound text m : load text = Some m -> exists r c, 1 <= r /\ 1 <= c /\ table r c m.
  Proof.
    unfold load_from_csv. set (lines := split_on newline text). assert (NE : lines <> []) by apply split_on_nonempty. set (n := length _). intros E.
    destruct (load_rows_spec n lines) as [[H E']|[_ E']]; rewrite E' in E; [|discriminate]. injection E as <-. exists (length lines), n. split; [destruct lines; [congruence|cbn; lia]|]. split.
    - unfold n. pose proof (split_on_nonempty comma (hd [] lines)) as Q. destruct (split_on comma (hd [] lines)); [congruence|cbn; lia].
    - split; [apply map_length|]. intros row Hr. apply in_map_iff in Hr. destruct Hr as (line & <- & Hl). rewrite map_length. now apply H.
  Qed.
  Lemma table_hd r c (m : matrix C) : 1 <= r -> table r c m -> length (hd [] m) = c.
  Proof. intros Hr [L H]. destruct m as [|r0 m]; [cbn in L; lia|]. apply H. now left. Qed.

  (** what each action does to the table, cell by cell *)
  Definition effect (a : action) (f f' : form) : Prop :=
    let m := fm_matrix f in let m' := fm_matrix f' in
    forall r c, 1 <= r -> 1 <= c -> table r c m ->
    match a with
    | AddSource => table (r + 1) c m' /\ forall i j, cell m' i j = cell m i j
    | AddVariable => table r (c + 1) m' /\ forall i j, cell m' i j = cell m i j
    | DeleteSource k => table (r - 1) c m' /\ forall i j, cell m' i j = cell m (if i <? k then i else S i) j
    | DeleteVariable k => table r (c - 1) m' /\ forall i j, cell m' i j = cell m i (if j <? k then j else S j)
    | Clear => table r c m' /\ forall i j, cell m' i j = None
    | Enter k l v => table r c m' /\ forall i j, cell m' i j = if (i =? k) && (j =? l) then v else cell m i j
    | ToggleDialog => m' = m /\ fm_open f' = negb (fm_open f) /\ fm_error f' = false
    | TypeText s => m' = m /\ fm_textarea f' = s
    | LoadText => m' = m /\ fm_error f' = true /\ fm_open f' = fm_open f \/ fm_open f' = false
    | LoadPreset l => m' = match dget presets l with Some p => p | None => m end
    end.
  Lemma cell_map_rows (m : matrix C) (g : list (option C) -> list (option C)) (i j j' : nat) :
    (forall row, In row m -> match nth_error (g row) j with Some x => x | None => None end = match nth_error row j' with Some x => x | None => None end) -> cell (map g m) i j = cell m i j'.
  Proof. intros H. unfold cell. rewrite nth_error_map. destruct (nth_error m i) as [row|] eqn:E; [|reflexivity]. cbn [option_map]. apply H. now apply nth_error_In in E. Qed.

  Theorem C85_effect (f f' : form) a : sound_presets -> dget presets [] = None -> offered f a = true -> act a f = Some f' -> effect a f f'.
  Proof.
    intros HP HP0 O A r c Hr Hc T. destruct T as [L W]. pose proof (table_hd r c _ Hr (conj L W)) as Hd. destruct a; cbn [WebForm.act WebForm.offered] in A, O.
    - assert (E0 : add_source (fm_matrix f) = Some (fm_matrix f ++ [map (fun _ => None) (hd [] (fm_matrix f))])) by (unfold add_source; destruct (fm_matrix f); [cbn in L; lia|reflexivity]).
      rewrite E0 in A. cbn [option_map] in A. injection A as <-. cbn [set_matrix fm_matrix].
      split; [split; [rewrite app_length; cbn; lia|intros row Hx; apply in_app_or in Hx; destruct Hx as [Hx|[<-|[]]]; [auto|now rewrite map_length]]|].
      intros i j. unfold cell. destruct (Nat.ltb_spec i r) as [Li|Li]; [now rewrite nth_error_app1 by lia|]. rewrite nth_error_app2 by lia. rewrite (proj2 (nth_error_None (fm_matrix f) i)) by lia.
      destruct (i - length (fm_matrix f)) as [|k]; cbn [nth_error]; [|now destruct k]. rewrite nth_error_map. now destruct (nth_error (hd [] (fm_matrix f)) j).
    - injection A as <-. cbn [set_matrix fm_matrix]. split; [split; [unfold add_variable; now rewrite map_length|intros row Hx; apply in_map_iff in Hx; destruct Hx as (row0 & <- & Hx); cbv beta; rewrite app_length; cbn; rewrite (W _ Hx); lia]|].
      intros i j. apply cell_map_rows. intros row Hx. destruct (Nat.ltb_spec j (length row)) as [Li|Li]; [now rewrite nth_error_app1 by lia|]. rewrite nth_error_app2 by lia. rewrite (proj2 (nth_error_None row j)) by lia.
      destruct (j - length row) as [|k]; [reflexivity|now destruct k].
    - injection A as <-. cbn [set_matrix fm_matrix]. apply Bool.andb_true_iff in O. destruct O as [O1 O2]. apply Nat.ltb_lt in O1, O2.
      split; [split; [unfold delete_source; rewrite splice1_length by lia; lia|intros row Hx; apply splice1_In in Hx; auto]|].
      intros k j. unfold cell, delete_source. now rewrite nth_splice1 by lia.
    - injection A as <-. cbn [set_matrix fm_matrix]. apply Bool.andb_true_iff in O. destruct O as [O1 O2]. apply Nat.ltb_lt in O1, O2.
      split; [split; [unfold delete_variable; now rewrite map_length|intros row Hx; apply in_map_iff in Hx; destruct Hx as (row0 & <- & Hx); specialize (W _ Hx); rewrite splice1_length by lia; lia]|].
      intros i k. apply cell_map_rows. intros row Hx. specialize (W _ Hx). now rewrite nth_splice1 by lia.
    - injection A as <-. cbn [set_matrix fm_matrix]. split; [split; [unfold clear_entries; now rewrite map_length|intros row Hx; apply in_map_iff in Hx; destruct Hx as (row0 & <- & Hx); rewrite map_length; auto]|].
      intros i j. unfold cell, clear_entries. rewrite nth_error_map. destruct (nth_error (fm_matrix f) i) as [row|]; [|reflexivity]. cbn [option_map]. rewrite nth_error_map. now destruct (nth_error row j).
    - unfold enter in A. destruct (nth_error (fm_matrix f) i) as [row|] eqn:Er; [|discriminate]. cbn [option_map] in A. injection A as <-. cbn [set_matrix fm_matrix]. apply Nat.ltb_lt in O.
      assert (Hi : i < length (fm_matrix f)) by (apply nth_error_Some; congruence). pose proof (W row (nth_error_In _ _ Er)) as Wr.
      split; [split; [rewrite set_nth_length by exact Hi; exact L|intros x Hx; apply set_nth_In in Hx; destruct Hx as [->|Hx]; [rewrite set_nth_length by exact O; exact Wr|auto]]|].
      intros k l. unfold cell. rewrite nth_set_nth by exact Hi. destruct (Nat.eqb_spec k i) as [->|N]; cbn [andb]; [|reflexivity]. rewrite Er, nth_set_nth by exact O. destruct (l =? j); reflexivity.
    - injection A as <-. cbn. auto.
    - injection A as <-. cbn. auto.
    - destruct (load (fm_textarea f)) as [m|]; injection A as <-; cbn; auto.
    - destruct label as [|ch l]; [injection A as <-; now rewrite HP0|]. destruct (dget presets (ch :: l)) as [p|]; [|discriminate]. cbn [option_map] in A. injection A as <-. reflexivity.
  Qed.

  Lemma act_sound (f f' : form) a : sound_presets -> dget presets [] = None -> sound f -> offered f a = true -> act a f = Some f' -> sound f'.
  Proof.
    intros HP HP0 (r & c & Hr & Hc & T) O A. pose proof (C85_effect f f' a HP HP0 O A r c Hr Hc T) as Q. pose proof (table_hd r c _ Hr T) as Hd. destruct a; cbn [WebForm.offered] in O.
    - exists (r + 1), c. split; [lia|]. split; [lia|apply Q].
    - exists r, (c + 1). split; [lia|]. split; [lia|apply Q].
    - apply Bool.andb_true_iff in O. destruct O as [O1 O2]. apply Nat.ltb_lt in O1. destruct T as [L W]. exists (r - 1), c. split; [lia|]. split; [lia|apply Q].
    - apply Bool.andb_true_iff in O. destruct O as [O1 O2]. apply Nat.ltb_lt in O1. exists r, (c - 1). split; [lia|]. split; [lia|apply Q].
    - exists r, c. split; [lia|]. split; [lia|apply Q].
    - exists r, c. split; [lia|]. split; [lia|apply Q].
    - exists r, c. destruct Q as [-> _]. auto.
    - exists r, c. destruct Q as [-> _]. auto.
    - cbn [WebForm.act] in A. destruct (load (fm_textarea f)) as [m|] eqn:E; injection A as <-; [|exists r, c; auto]. exact (load_sound _ _ E).
    - unfold sound. rewrite Q. destruct (dget presets label) as [p|] eqn:E; [exact (HP _ _ E)|exists r, c; auto].
  Qed.
  (** whatever the user does, the table has at least one row and one column and is rectangular, and the next action that is offered
      does not fail *)
  Theorem C85_always_a_table f0 acts f : sound_presets -> dget presets [] = None -> sound f0 -> session f0 acts f ->
    sound f /\ forall a, offered f a = true -> exists f', act a f = Some f'.
  Proof.
    intros HP HP0 H0 S. assert (H : sound f) by (induction S as [|acts a f f' S IH O A]; [exact H0|exact (act_sound f f' a HP HP0 IH O A)]). split; [exact H|].
    intros a O. destruct H as (r & c & Hr & Hc & L & W). destruct a; cbn [WebForm.act WebForm.offered] in *; try (eexists; reflexivity).
    - destruct (fm_matrix f) as [|r0 m0] eqn:Em; [cbn in L; lia|]. eexists. reflexivity.
    - unfold enter. destruct (nth_error (fm_matrix f) i); [eexists; reflexivity|discriminate].
    - destruct (load (fm_textarea f)); eexists; reflexivity.
    - destruct label as [|ch l]; [eexists; reflexivity|]. destruct (dget presets (ch :: l)) as [p|] eqn:E; [eexists; reflexivity|].
      apply mem_In in O. destruct O as [O|O]; [discriminate|]. exfalso. apply dget_None in E. now apply E.
  Qed.

  (** ... and the page offers exactly these: a source or variable of the table can be deleted if it is not the only one, any cell can be
      filled in, the text can be typed and loaded while its dialogue is open, any of the listed datasets (or none) can be chosen, and
      the other buttons are always there *)
  Theorem C85_offers f r c a : 1 <= r -> table r c (fm_matrix f) -> (offered f a = true <->
    match a with
    | AddSource | AddVariable | Clear | ToggleDialog => True
    | DeleteSource i => 2 <= r /\ i < r
    | DeleteVariable j => 2 <= c /\ j < c
    | Enter i j _ => i < r /\ j < c
    | TypeText _ | LoadText => fm_open f = true
    | LoadPreset l => l = [] \/ exists m, dget presets l = Some m
    end).
  Proof.
    intros Hr T. pose proof (table_hd r c _ Hr T) as Lc. destruct T as [L W]. destruct a; cbn [WebForm.offered]; try (split; auto; fail).
    - rewrite L, Bool.andb_true_iff, !Nat.ltb_lt. reflexivity.
    - rewrite Lc, Bool.andb_true_iff, !Nat.ltb_lt. reflexivity.
    - destruct (nth_error (fm_matrix f) i) as [row|] eqn:E.
      + assert (i < length (fm_matrix f)) by (apply nth_error_Some; congruence). rewrite Nat.ltb_lt, (W row (nth_error_In _ _ E)). lia.
      + apply nth_error_None in E. split; [discriminate|lia].
    - rewrite mem_In. cbn [In]. pose proof (dget_None presets label) as N. destruct (dget presets label) as [m|] eqn:E.
      + split; [intros [H|H]; [left; now symmetry|right; eauto]|]. intros [H|_]; [now left|]. right. apply dget_In in E. exact (in_map fst _ _ E).
      + split; [intros [H|H]; [left; now symmetry|exfalso; now apply N]|]. intros [H|[? H]]; [now left|discriminate].
  Qed.

  (** ** C87 *)
  (** a text, as rows of cells *)
  Definition csv_text (rows : list (list pystr)) : pystr := join [newline] (map (join [comma]) rows).
  Definition csv_rows (rows : list (list pystr)) : Prop :=
    rows <> [] /\ forall row, In row rows -> row <> [] /\ forall x, In x row -> ~ In comma x /\ ~ In newline x.
  (** every text is one of these, in one way *)
  Theorem C87_rows text : exists! rows, csv_rows rows /\ csv_text rows = text.
  Proof.
    exists (map (split_on comma) (split_on newline text)). split.
    - split; [split|].
      + pose proof (split_on_nonempty newline text). now destruct (split_on newline text).
      + intros row Hr. apply in_map_iff in Hr. destruct Hr as (line & <- & Hl). split; [apply split_on_nonempty|]. intros x Hx. split; [now apply (split_on_parts _ line)|].
        intros Hn. apply (split_on_parts newline text line Hl). rewrite <- (join_split comma line). clear Hl. induction (split_on comma line) as [|p ps IH]; [destruct Hx|].
        destruct ps as [|p' ps]; [destruct Hx as [->|[]]; exact Hn|]. change (join [comma] (p :: p' :: ps)) with (p ++ comma :: join [comma] (p' :: ps)). apply in_or_app.
        destruct Hx as [->|Hx]; [now left|right; right; now apply IH].
      + unfold csv_text. rewrite map_map. rewrite (map_ext _ (fun x => x) (join_split comma)), map_id. apply join_split.
    - intros rows [[NE H] <-]. assert (E : forall row, In row rows -> split_on comma (join [comma] row) = row) by (intros row Hr; destruct (H row Hr) as [N Hx]; apply split_join; [exact N|intros x Hin; now apply Hx]).
      unfold csv_text. rewrite split_join.
      + rewrite map_map. rewrite <- (map_id rows) at 2. now apply map_ext_in.
      + now destruct rows.
      + intros p Hp. apply in_map_iff in Hp. destruct Hp as (row & <- & Hr). destruct (H row Hr) as [N Hx]. clear N. induction row as [|x row IH]; [intros []|].
        destruct row as [|y row]; [apply Hx; now left|]. change (join [comma] (x :: y :: row)) with (x ++ comma :: join [comma] (y :: row)). intros Hin. apply in_app_or in Hin.
        destruct Hin as [Hin|[Hin|Hin]]; [apply (Hx x); [now left|exact Hin]|discriminate|]. assert (Q : forall r : list pystr, In newline (join [comma] r) -> (forall x, In x r -> ~ In comma x /\ ~ In newline x) -> False).
        { clear. induction r as [|p ps IH]; intros Hin Hx; [destruct Hin|]. destruct ps as [|q ps]; [apply (Hx p); [now left|exact Hin]|]. change (join [comma] (p :: q :: ps)) with (p ++ comma :: join [comma] (q :: ps)) in Hin.
          apply in_app_or in Hin. destruct Hin as [Hin|[Hin|Hin]]; [apply (Hx p); [now left|exact Hin]|discriminate|]. apply IH; [exact Hin|]. intros z Hz. apply Hx. now right. }
        apply (Q (y :: row) Hin). intros z Hz. apply Hx. now right.
  Qed.
  (** the value a cell gets: the number parseFloat reads, but no value if that is 0 or not a number *)
  Inductive loaded (s : pystr) : option C -> Prop :=
  | loaded_number c : parseFloat s = Some c -> is_zero c = false -> loaded s (Some c)
  | loaded_zero c : parseFloat s = Some c -> is_zero c = true -> loaded s None
  | loaded_nan : parseFloat s = None -> loaded s None.
  Lemma parse_loaded s : loaded s (parse_string_value parseFloat is_zero s).
  Proof. unfold parse_string_value. destruct (parseFloat s) as [c|] eqn:E; [|now apply loaded_nan]. destruct (is_zero c) eqn:Z; [eapply loaded_zero|eapply loaded_number]; eauto. Qed.
  Lemma load_text rows : csv_rows rows -> 
    load (csv_text rows) = if forallb (fun row => length row =? length (hd [] rows)) rows then Some (map (map (parse_string_value parseFloat is_zero)) rows) else None.
  Proof.
    intros H. destruct (C87_rows (csv_text rows)) as (rows' & [H' E'] & U). pose proof (U rows (conj H eq_refl)) as E. subst rows'.
    assert (E2 : map (split_on comma) (split_on newline (csv_text rows)) = rows).
    { symmetry. destruct (C87_rows (csv_text rows)) as (rows2 & _ & U2). transitivity rows2; [symmetry; apply U2; split; [exact H|reflexivity]|]. apply U2. clear U U2 rows2.
      split; [split|].
      - pose proof (split_on_nonempty newline (csv_text rows)). now destruct (split_on newline (csv_text rows)).
      - intros row Hr. apply in_map_iff in Hr. destruct Hr as (line & <- & Hl). split; [apply split_on_nonempty|]. intros x Hx. split; [now apply (split_on_parts _ line)|].
        intros Hn. apply (split_on_parts newline (csv_text rows) line Hl). rewrite <- (join_split comma line). clear Hl. induction (split_on comma line) as [|p ps IH]; [destruct Hx|].
        destruct ps as [|p' ps]; [destruct Hx as [->|[]]; exact Hn|]. change (join [comma] (p :: p' :: ps)) with (p ++ comma :: join [comma] (p' :: ps)). apply in_or_app.
        destruct Hx as [->|Hx]; [now left|right; right; now apply IH].
      - unfold csv_text at 1. rewrite map_map. rewrite (map_ext _ (fun x => x) (join_split comma)), map_id. apply join_split. }
    unfold load_from_csv. set (lines := split_on newline (csv_text rows)) in *. assert (Eh : split_on comma (hd [] lines) = hd [] rows) by (rewrite <- E2; destruct lines eqn:El; [exfalso; now apply (split_on_nonempty newline (csv_text rows))|reflexivity]).
    rewrite Eh. set (n := length (hd [] rows)). rewrite <- E2. clearbody n. rewrite <- E2 in H. clear -H.
    destruct (load_rows_spec n lines) as [[H1 ->]|[(line & H1 & H2) ->]].
    - rewrite (proj2 (forallb_forall _ _)); [now rewrite map_map|]. intros row Hr. apply in_map_iff in Hr. destruct Hr as (line & <- & Hl). apply Nat.eqb_eq. now apply H1.
    - destruct (forallb _ _) eqn:E; [|reflexivity]. rewrite forallb_forall in E. specialize (E (split_on comma line) (in_map _ _ _ H1)). apply Nat.eqb_eq in E. contradiction.
  Qed.
  (** Pressing Load: the new table if all rows have as many cells as the first, else a message, the table being unchanged *)
  Theorem C87_load (f : form) rows : csv_rows rows -> fm_textarea f = csv_text rows ->
    exists f', act LoadText f = Some f' /\ fm_textarea f' = fm_textarea f /\
      ((forall row, In row rows -> length row = length (hd [] rows)) -> fm_open f' = false /\ Forall2 (Forall2 loaded) rows (fm_matrix f')) /\
      ((exists row, In row rows /\ length row <> length (hd [] rows)) -> f' = Form (fm_matrix f) (fm_open f) true (fm_textarea f)).
  Proof.
    intros H E. cbn [WebForm.act]. rewrite E, (load_text rows H). destruct (forallb _ rows) eqn:B.
    - eexists. split; [reflexivity|]. cbn. split; [reflexivity|]. split.
      + intros _. split; [reflexivity|]. clear. induction rows as [|row rows IH]; cbn [map]; constructor; [|exact IH]. clear. induction row as [|x row IH]; cbn [map]; constructor; [apply parse_loaded|exact IH].
      + intros (row & Hr & N). rewrite forallb_forall in B. specialize (B row Hr). apply Nat.eqb_eq in B. contradiction.
    - eexists. split; [reflexivity|]. cbn. split; [reflexivity|]. split; [|reflexivity].
      intros Hall. exfalso. assert (B' : forallb (fun row => length row =? length (hd [] rows)) rows = true) by (apply forallb_forall; intros row Hr; apply Nat.eqb_eq; now apply Hall). congruence.
  Qed.
End Editor.

(** * C86: what the server gets *)
Section Sent.
  Context {C : Type}.
  Variable parse : pystr -> option (option C).      (* Python's float() *)
  Variable show : C -> pystr.                        (* JavaScript's String() *)
  (** what is assumed of the two: what JavaScript writes, Python reads as the same number, and it is not blank and has no comma, white space or "_" *)
  Definition prints_for_python : Prop := prints_numbers parse show /\ forall c, ~ In 95%N (show c).
  Hypothesis OK : prints_for_python.
  (** the matrix the server makes from the text that the page sends *)
  Definition received (m : matrix C) : res csv_err (matrix C) := csv_to_masked_array parse (drop_underscores (as_csv show m)).

  Lemma as_csv_to_csv (m : matrix C) : m <> [] -> as_csv show m = to_csv show m ++ [newline].
  Proof.
    intros NE. unfold as_csv, to_csv. induction m as [|row m IH]; [congruence|]. cbn [map concat]. destruct m as [|row' m]; [cbn; now rewrite app_nil_r|].
    rewrite IH by discriminate. change (join [newline] (?a :: ?b :: ?t)) with (a ++ [newline] ++ join [newline] (b :: t)). cbn [map]. 
    change (join [newline] ((join [comma] (map (show_cell show) row)) :: join [comma] (map (show_cell show) row') :: map (fun row0 => join [comma] (map (show_cell show) row0)) m))
      with (join [comma] (map (show_cell show) row) ++ [newline] ++ join [newline] (join [comma] (map (show_cell show) row') :: map (fun row0 => join [comma] (map (show_cell show) row0)) m)).
    now rewrite <- !app_assoc.
  Qed.
  Lemma join_In (sep : pystr) ps c : In c (join sep ps) -> In c sep \/ exists p, In p ps /\ In c p.
  Proof.
    induction ps as [|p ps IH]; [intros []|]. destruct ps as [|q ps]; [intros H; right; exists p; split; [now left|exact H]|].
    change (join sep (p :: q :: ps)) with (p ++ sep ++ join sep (q :: ps)). intros H. apply in_app_or in H. destruct H as [H|H]; [right; exists p; split; [now left|exact H]|].
    apply in_app_or in H. destruct H as [H|H]; [now left|]. destruct (IH H) as [H'|(p' & H1 & H2)]; [now left|right; exists p'; split; [now right|exact H2]].
  Qed.
  Lemma as_csv_underscores (m : matrix C) : drop_underscores (as_csv show m) = as_csv show m.
  Proof.
    unfold drop_underscores. assert (H : forall ch, In ch (as_csv show m) -> ch <> underscore).
    { intros ch Hc. unfold as_csv in Hc. apply in_concat in Hc. destruct Hc as (l & Hl & Hc). apply in_map_iff in Hl. destruct Hl as (row & <- & _). apply in_app_or in Hc.
      destruct Hc as [Hc|[<-|[]]]; [|discriminate]. apply join_In in Hc. destruct Hc as [[<-|[]]|(p & Hp & Hc)]; [discriminate|]. apply in_map_iff in Hp. destruct Hp as ([c|] & <- & _); [|destruct Hc].
      cbn [show_cell] in Hc. intros ->. destruct OK as [_ Hu]. exact (Hu c Hc). }
    induction (as_csv show m) as [|ch s IH]; [reflexivity|]. cbn [filter]. rewrite (beq_neq ch underscore) by (apply H; now left). cbn [negb]. f_equal. apply IH. intros x Hx. apply H. now right.
  Qed.
  Lemma strip_trailing_newline s : strip (s ++ [newline]) = strip s.
  Proof.
    destruct (strip_decomp s) as (a & b & Ha & Hb & Es & N). rewrite Es at 1. rewrite <- !app_assoc. apply strip_unique; [exact Ha| |exact N].
    intros c Hc. apply in_app_or in Hc. destruct Hc as [Hc|[<-|[]]]; [now apply Hb|reflexivity].
  Qed.
  Lemma received_eq (m : matrix C) : m <> [] -> received m = csv_to_masked_array parse (to_csv show m).
  Proof. intros NE. unfold received, csv_to_masked_array. rewrite as_csv_underscores, as_csv_to_csv by exact NE. now rewrite strip_trailing_newline. Qed.

  (** a table with several columns arrives as it is on the screen *)
  Theorem C86_received (m : matrix C) r c : 1 <= r -> 2 <= c -> table r c m -> received m = Ok m.
  Proof.
    intros Hr Hc [L W]. assert (NE : m <> []) by (intros ->; cbn in L; lia). rewrite received_eq by exact NE. apply (keeps_round_trip parse show (proj1 OK) m c); [exact NE|lia|exact W|now left].
  Qed.
  (** a table with one column arrives without the empty rows at its top and bottom, and the sources are numbered from the first row that is left;
      from a table that is empty, one empty row arrives *)
  Theorem C86_one_column (m core : matrix C) a b : (forall row, In row m -> length row = 1) -> m = repeat [None] a ++ core ++ repeat [None] b ->
    (core = [] \/ hd [] core <> [None] /\ last core [] <> [None]) -> m <> [] -> received m = Ok (match core with [] => [[None]] | _ => core end).
  Proof.
    intros W E H NE. rewrite received_eq by exact NE. rewrite (C11_single_column parse show (proj1 OK) m NE W). f_equal. unfold trim.
    assert (D : forall k (t : matrix C), drop_masked (repeat [None] k ++ t) = drop_masked t) by (induction k as [|k IH]; intros t; [reflexivity|cbn; apply IH]).
    assert (D0 : forall t : matrix C, (forall row, In row t -> length row = 1) -> hd [] t <> [None] -> drop_masked t = t).
    { intros [|row t] Wt Hh; [reflexivity|]. specialize (Wt row (or_introl eq_refl)). destruct row as [|[x|] [|]]; cbn in *; try lia; try reflexivity. congruence. }
    destruct core as [|r0 core].
    - cbn [app] in E. rewrite E, <- repeat_app. rewrite <- (app_nil_r (repeat [None] (a + b))), D. reflexivity.
    - destruct H as [H|[H1 H2]]; [discriminate|]. set (co := r0 :: core) in *. assert (Wc : forall row, In row co -> length row = 1) by (intros row Hr; apply W; rewrite E; apply in_or_app; right; apply in_or_app; now left).
      rewrite E at 1. rewrite D. rewrite (D0 (co ++ repeat [None] b)) by (try exact H1; intros row Hr; apply W; rewrite E; apply in_or_app; now right).
      rewrite rev_app_distr, rev_repeat, D. rewrite D0.
      + rewrite rev_involutive. reflexivity.
      + intros row Hr. apply Wc. now apply in_rev.
      + destruct (exists_last (l:=co) ltac:(discriminate)) as (fr & rl & El). rewrite El in H2. rewrite last_last in H2. rewrite El, rev_app_distr. exact H2.
  Qed.
  (** every one-column table is of this form *)
  Theorem C86_one_column_form (m : matrix C) : (forall row, In row m -> length row = 1) -> exists a b core, m = repeat [None] a ++ core ++ repeat [None] b /\ (core = [] \/ hd [] core <> [None] /\ last core [] <> [None]).
  Proof.
    intros W. destruct (drop_masked_app m) as (a & Ea & Ha). set (m1 := drop_masked m) in *. clearbody m1. destruct (drop_masked_app (rev m1)) as (b & Eb & Hb). set (m2 := drop_masked (rev m1)) in *. clearbody m2.
    exists a, b, (rev m2). assert (E1 : m1 = rev m2 ++ repeat [None] b) by (rewrite <- (rev_involutive m1), Eb, rev_app_distr, rev_repeat; reflexivity). split; [now rewrite Ea, E1|].
    destruct (rev m2) as [|r0 rest] eqn:E2; [now left|right]. split.
    - rewrite E1 in Ha. cbn [app hd] in *. intros ->. exact Ha.
    - rewrite <- E2. destruct m2 as [|x m2]; [discriminate|]. cbn [rev]. rewrite last_last. intros ->. exact Hb.
  Qed.
  (** so it arrives as it is if and only if its first and last row have a claim, or it has only one row *)
  Theorem C86_received_iff (m : matrix C) r c : 1 <= r -> 1 <= c -> table r c m -> (received m = Ok m <-> c <> 1 \/ r = 1 \/ cell m 0 0 <> None /\ cell m (r - 1) 0 <> None).
  Proof.
    intros Hr Hc [L W]. assert (NE : m <> []) by (intros ->; cbn in L; lia). rewrite received_eq by exact NE. rewrite (C11_round_trip_iff parse show (proj1 OK) m c NE Hc W). unfold keeps. rewrite L. split.
    - intros [H|[H|H]]; [left; lia|auto|auto].
    - intros [H|[H|H]]; [left; lia|auto|auto].
  Qed.
End Sent.

Section Run.
  Context {C W : Type} {EW : Eqb W} {F : Num} {FOK : NumOK F}.
  Variable parse : pystr -> option (option C).
  Variable show : C -> pystr.
  Hypothesis OK : prints_for_python parse show.
  Variable label : C -> W.
  Variable pfloat : pystr -> option F.
  Variable decimal : pychar -> option N.
  Hypothesis DEC : PropsClient.decimal_ok decimal.
  Variable ord : list pystr -> list pystr.
  Hypothesis Ord : forall l, Permutation.Permutation l (ord l).
  Variable ltw : W -> W -> bool.
  Variable rnd : nat -> nat.
  Hypothesis irrefl : forall x : F, n_ltb x x = false.
  Variable T : Graph.trig F.
  Variable show_nat : nat -> pystr.
  Variable show_w : W -> pystr.
  Variable loads : pystr -> option (jval (F:=F)).
  Variable oset : list pystr -> list pystr.
  Hypothesis Oset : forall l, Permutation.Permutation (oset l) l.
  Hypothesis show_nat_inj : forall a b, show_nat a = show_nat b -> a = b.
  Hypothesis show_w_inj : forall a b, show_w a = show_w b -> a = b.
  Notation web_run := (web_run parse label pfloat decimal ord ltw rnd T show_nat show_w loads oset).
  Notation response_spec := (response_spec ltw rnd T show_nat show_w loads).

  (** running what is on the screen: if the parameters are accepted, the request is answered from the claims the table shows, row i being source i
      and column j variable j *)
  Theorem C86_run clocks fuel (m : matrix C) r c labels params previous items lines : 1 <= r -> 2 <= c -> table r c m -> labels <> [] ->
    parameter_lines (Request labels (Some (as_csv show m)) params previous) lines ->
    Forall2 (fun s it => Client.algorithm_parameter pfloat decimal s = Ok it) lines items ->
    exists ts (d : dataset nat nat W F), (forall i j w, In (i, j, w) ts <-> exists v, cell m i j = Some v /\ label v = w) /\ build false None ts = Ok d /\
      response_spec clocks fuel ts d (dict_of items) previous labels (web_run clocks fuel (Request labels (Some (as_csv show m)) params previous)).
  Proof.
    intros Hr Hc Tm NL PL FI. assert (NE : m <> []) by (destruct Tm as [L _]; intros ->; cbn in L; lia).
    set (q := Request labels (Some (as_csv show m)) params previous) in *.
    destruct (C48_run parse label pfloat decimal DEC ord Ord ltw rnd irrefl T show_nat show_w loads oset Oset show_nat_inj show_w_inj clocks fuel q) as [_ H].
    assert (NT : as_csv show m <> []) by (rewrite as_csv_to_csv by exact NE; destruct (to_csv show m); discriminate).
    destruct (H (as_csv show m) NL eq_refl NT) as (lines' & PL' & K). clear H.
    assert (El : lines' = lines).
    { unfold parameter_lines in PL, PL'. cbn [q_parameters q] in PL, PL'. destruct params as [s|]; [|congruence]. destruct PL as (N1 & J1 & I1). destruct PL' as (N2 & J2 & I2).
      rewrite <- (split_join newline lines' N2 I2), <- (split_join newline lines N1 I1). now rewrite J1, J2. }
    subst lines'. destruct K as [(before & line & after & e & E1 & E2 & E3 & E4)|(items' & FI' & text' & Et & K)].
    - exfalso. rewrite E1 in FI. apply Forall2_app_inv_l in FI. destruct FI as (i1 & i2 & _ & FI & _). inversion FI as [|? it ? ? Hit]; subst. congruence.
    - assert (items' = items) by (clear -FI FI'; revert items' FI'; induction FI as [|s it lines items E FI IH]; intros items' FI'; inversion FI' as [|? it' ? l E' F']; subst; [reflexivity|f_equal; [congruence|now apply IH]]). subst items'.
      assert (Er : csv_to_masked_array parse text' = Ok m) by (rewrite Et; exact (C86_received parse show OK m r c Hr Hc Tm)). rewrite Er in K. destruct K as (d & Ed & K).
      exists (get_triples label m), d. split; [|split; [exact Ed|exact K]].
      intros i j w. rewrite (get_triples_In label m i j w). apply holds_true.
  Qed.
End Run.

(** * C87, continued: reading back what the page wrote *)
Section Reload.
  Context {C : Type}.
  Variable parseFloat : pystr -> option C.
  Variable is_zero : C -> bool.
  Variable show : C -> pystr.
  (** parseFloat reads what was printed, a blank is not a number, and what is printed has no comma or line end *)
  Definition js_reads : Prop := (forall c, parseFloat (show c) = Some c /\ ~ In comma (show c) /\ ~ In newline (show c)) /\ parseFloat [] = None.
  Hypothesis OK : js_reads.
  Notation load := (load_from_csv parseFloat is_zero).
  (** the table with its zeros removed *)
  Definition without_zeros (m : matrix C) : matrix C := map (map (fun x => match x with Some c => if is_zero c then None else Some c | None => None end)) m.

  Lemma show_cell_load x : parse_string_value parseFloat is_zero (show_cell show x) = match x with Some c => if is_zero c then None else Some c | None => None end.
  Proof. unfold parse_string_value. destruct x as [c|]; cbn [show_cell]; [now rewrite (proj1 (proj1 OK c))|now rewrite (proj2 OK)]. Qed.
  Lemma shown_rows (m : matrix C) r c : 1 <= r -> 1 <= c -> table r c m -> csv_rows (map (map (show_cell show)) m).
  Proof.
    intros Hr Hc [L W]. split; [destruct m; [cbn in L; lia|discriminate]|]. intros row Hx. apply in_map_iff in Hx. destruct Hx as (row0 & <- & Hx). specialize (W row0 Hx).
    split; [destruct row0; [cbn in W; lia|discriminate]|]. intros x Hin. apply in_map_iff in Hin. destruct Hin as ([v|] & <- & _); cbn [show_cell]; [|split; intros []]. destruct OK as [K _]. destruct (K v) as (_ & K1 & K2). now split.
  Qed.
  (** a CSV text as the library writes it is loaded cell by cell, but every 0 becomes an empty cell *)
  Theorem C87_library_text (m : matrix C) r c : 1 <= r -> 1 <= c -> table r c m -> load (to_csv show m) = Some (without_zeros m).
  Proof.
    intros Hr Hc T. assert (E : to_csv show m = csv_text (map (map (show_cell show)) m)) by (unfold to_csv, csv_text; now rewrite map_map). rewrite E, (load_text parseFloat is_zero _ (shown_rows m r c Hr Hc T)).
    rewrite (proj2 (forallb_forall _ _)).
    - f_equal. unfold without_zeros. rewrite map_map. apply map_ext. intros row. rewrite map_map. apply map_ext. intros x. apply show_cell_load.
    - destruct T as [L W]. intros row Hx. apply in_map_iff in Hx. destruct Hx as (row0 & <- & Hx). apply Nat.eqb_eq. rewrite map_length, (W _ Hx). destruct m as [|r0 m]; [cbn in L; lia|]. cbn [map hd]. rewrite map_length. symmetry. apply W. now left.
  Qed.
  (** so the claims of a file survive loading it in the page if and only if none of them is 0 *)
  Theorem C87_library_text_iff (m : matrix C) r c : 1 <= r -> 1 <= c -> table r c m -> (load (to_csv show m) = Some m <-> forall i j v, cell m i j = Some v -> is_zero v = false).
  Proof.
    intros Hr Hc T. rewrite (C87_library_text m r c Hr Hc T). split.
    - intros E i j v Hv. injection E as E. assert (Q : cell (without_zeros m) i j = Some v) by (rewrite E; exact Hv). unfold cell, without_zeros in Q. rewrite nth_error_map in Q.
      unfold cell in Hv. destruct (nth_error m i) as [row|]; [|discriminate]. cbn [option_map] in Q. rewrite nth_error_map in Q. destruct (nth_error row j) as [x|]; [|discriminate]. cbn [option_map] in Q. subst x. destruct (is_zero v); [discriminate|reflexivity].
    - intros H. f_equal. unfold without_zeros. rewrite <- (map_id m) at 2. apply map_ext_in. intros row Hx. rewrite <- (map_id row) at 2. apply map_ext_in. intros x Hin.
      destruct x as [v|]; [|reflexivity]. apply In_nth_error in Hx, Hin. destruct Hx as [i Hi]. destruct Hin as [j Hj]. rewrite (H i j v); [reflexivity|]. unfold cell. now rewrite Hi, Hj.
  Qed.
  (** the text the page itself sends ends with a line end, so that the page refuses it if the table has several columns, and adds an empty row to a table
      of one column *)
  Theorem C87_own_text (m : matrix C) r c : 1 <= r -> 1 <= c -> table r c m ->
    load (as_csv show m) = if c =? 1 then Some (without_zeros m ++ [[None]]) else None.
  Proof.
    intros Hr Hc T. pose proof T as [L W]. assert (NE : m <> []) by (intros ->; cbn in L; lia).
    assert (E : as_csv show m = csv_text (map (map (show_cell show)) m ++ [[[]]])).
    { rewrite as_csv_to_csv by exact NE. unfold to_csv, csv_text. rewrite map_app, map_map. cbn [map]. rewrite join_snoc by (destruct m; [congruence|discriminate]). now rewrite app_nil_r. }
    assert (R : csv_rows (map (map (show_cell show)) m ++ [[[]]])).
    { destruct (shown_rows m r c Hr Hc T) as [N H]. split; [destruct m; discriminate|]. intros row Hx. apply in_app_or in Hx. destruct Hx as [Hx|[<-|[]]]; [now apply H|]. split; [discriminate|]. intros x [<-|[]]. split; intros []. }
    rewrite E, (load_text parseFloat is_zero _ R). assert (Eh : length (hd [] (map (map (show_cell show)) m ++ [[[]]])) = c).
    { destruct m as [|r0 m]; [congruence|]. cbn [map app hd]. rewrite map_length. apply W. now left. }
    rewrite Eh, forallb_app. rewrite (proj2 (forallb_forall _ (map (map (show_cell show)) m))) by (intros row Hx; apply in_map_iff in Hx; destruct Hx as (row0 & <- & Hx); apply Nat.eqb_eq; rewrite map_length; now apply W).
    cbn [forallb andb length]. rewrite Nat.eqb_sym, Bool.andb_true_r. destruct (Nat.eqb_spec c 1) as [->|N]; [|reflexivity]. f_equal. rewrite map_app. f_equal.
    - unfold without_zeros. rewrite map_map. apply map_ext. intros row. rewrite map_map. apply map_ext. intros x. apply show_cell_load.
    - cbn [map]. change (@nil pychar) with (show_cell show None). now rewrite show_cell_load.
  Qed.
End Reload.

(** * Non-vacuity *)
Module FormExamples.
  (** natural numbers in unary, 0 being one stroke *)
  Definition pf (s : pystr) : option nat := match CsvExamples.parse1 s with Some (Some n) => Some n | _ => None end.
  Definition zero (n : nat) : bool := n =? 0.
  Definition psets : dict pystr (matrix nat) := preset_datasets (fun n => n).
  Example presets_ok : sound_presets psets /\ dget psets [] = None /\ sound (new_form (fun n => n)).
  Proof.
    assert (H : forall m : matrix nat, In m (map snd psets) -> exists r c, 1 <= r /\ 1 <= c /\ table r c m).
    { intros m [<-|[<-|[<-|[<-|[]]]]]; [exists 4, 4|exists 4, 4|exists 4, 4|exists 4, 3]; (split; [lia|]; split; [lia|]; split; [reflexivity|]); intros row Hr; cbn in Hr; repeat destruct Hr as [<-|Hr]; try reflexivity; destruct Hr. }
    split; [|split; [reflexivity|]].
    - intros l m E. apply H. apply dget_In in E. apply in_map_iff. exists (l, m). split; [reflexivity|exact E].
    - unfold sound. apply H. left. reflexivity.
  Qed.
  (** delete the third source, add a variable, fill in a cell, load a text *)
  Definition acts : list (action nat) := [DeleteSource 2; AddVariable; Enter 2 4 (Some 7); ToggleDialog; TypeText [49; 44; 49; 49; 10; 44; 120]%N; LoadText].
  Fixpoint play (f : form nat) (l : list (action nat)) : option (form nat) :=
    match l with [] => Some f | a :: t => if offered psets f a then match act pf zero psets a f with Some f' => play f' t | None => None end else None end.
  Lemma play_session l : forall f0 pre f f', session pf zero psets f0 pre f -> play f l = Some f' -> session pf zero psets f0 (pre ++ l) f'.
  Proof.
    induction l as [|a l IH]; intros f0 pre f f' S P; cbn [play] in P; [injection P as <-; now rewrite app_nil_r|].
    destruct (offered psets f a) eqn:O; [|discriminate]. destruct (act pf zero psets a f) as [f1|] eqn:A; [|discriminate].
    replace (pre ++ a :: l) with ((pre ++ [a]) ++ l) by now rewrite <- app_assoc. apply (IH f0 (pre ++ [a]) f1); [|exact P]. exact (acted pf zero psets f0 pre a f f1 S O A).
  Qed.
  (** "1,11\n,x" : the first cell, a zero, is lost, the last two are not numbers *)
  Example a_session : session pf zero psets (new_form (fun n => n)) acts (Form [[None; Some 1]; [None; None]] false false [49; 44; 49; 49; 10; 44; 120]%N).
  Proof. apply (play_session acts _ [] (new_form (fun n => n))); [constructor|]. vm_compute. reflexivity. Qed.
  Example before_loading : option_map (fm_matrix (C:=nat)) (play (new_form (fun n => n)) (firstn 3 acts)) =
    Some [[Some 1; None; Some 3; Some 4; None]; [Some 2; Some 2; None; None; None]; [Some 1; Some 2; Some 5; None; Some 7]].
  Proof. vm_compute. reflexivity. Qed.
  Example printing : prints_for_python CsvExamples.parse1 CsvExamples.show1.
  Proof. split; [apply CsvExamples.unary_ok|]. intros c Hc. apply repeat_spec in Hc. discriminate. Qed.
  Example reading : js_reads pf CsvExamples.show1.
  Proof.
    split; [|reflexivity]. intros c. destruct (CsvExamples.unary_ok c) as (E & _ & H). unfold pf. rewrite E. split; [reflexivity|]. split; intros Hc; destruct (H _ Hc) as [H1 H2]; [now apply H2|discriminate].
  Qed.
  Example sent : received CsvExamples.parse1 CsvExamples.show1 [[None; Some 0]; [None; None]] = Ok [[None; Some 0]; [None; None]] /\
    received CsvExamples.parse1 CsvExamples.show1 [[None]; [Some 3]; [None]] = Ok [[Some 3]].
  Proof. split; vm_compute; reflexivity. Qed.
  Example zero_lost : load_from_csv pf zero (to_csv CsvExamples.show1 [[Some 0; Some 2]]) = Some [[None; Some 2]].
  Proof. vm_compute. reflexivity. Qed.
End FormExamples.
