(** Property theorems about matrix datasets and CSV files: C09, C10, C11, C12. *)
From Coq Require Import Reals Lra NArith.
From Verif Require Import Base Num Sparse Spec Dataset DatasetProofs DatasetRep PropsData PyStr Matrix.

(** * C09 *)
Lemma enum_from_In {A} (l : list A) i k x : In (k, x) (enum_from i l) <-> i <= k /\ nth_error l (k - i) = Some x.
Proof.
  revert i. induction l as [|y t IH]; intros i; cbn [enum_from In].
  - split; [intros []|]. intros [_ H]. destruct (k - i); discriminate.
  - rewrite IH. split.
    + intros [[= <- <-]|[Hk Hn]]; [split; [lia|now replace (i - i) with 0 by lia]|]. split; [lia|]. now replace (k - i) with (S (k - S i)) by lia.
    + intros [Hk Hn]. destruct (Nat.eq_dec k i) as [->|N]; [left; replace (i - i) with 0 in Hn by lia; cbn in Hn; congruence|].
      right. split; [lia|]. now replace (k - i) with (S (k - S i)) in Hn by lia.
Qed.
Section MatrixData.
  Context {C W : Type} {EW : Eqb W} {F : Num} {FOK : NumOK F}.
  Variable label : C -> W.
  Notation get_triples := (get_triples label).
  Notation matrix_dataset := (matrix_dataset (F:=F) label).

  (** does row i of the matrix hold value w in column j? *)
  Definition holds (m : matrix C) (i j : nat) (w : W) : bool := beq (option_map label (cell m i j)) (Some w).
  Lemma holds_true m i j w : holds m i j w = true <-> exists c, cell m i j = Some c /\ label c = w.
  Proof. unfold holds. rewrite beq_true. destruct (cell m i j) as [c|]; cbn; split; [intros [= <-]; eauto|intros (c' & [= ->] & ->); reflexivity|discriminate|intros (c' & H & _); discriminate]. Qed.

  Lemma get_triples_In m i j w : In (i, j, w) (get_triples m) <-> holds m i j w = true.
  Proof.
    rewrite holds_true. unfold Matrix.get_triples, cell. rewrite in_flat_map. split.
    - intros ([s row] & H1 & H2). apply enum_from_In in H1. destruct H1 as [_ H1]. apply in_flat_map in H2. destruct H2 as ([x v] & H2 & H3).
      apply enum_from_In in H2. destruct H2 as [_ H2]. destruct v as [c|]; [|destruct H3]. destruct H3 as [[= <- <- <-]|[]].
      rewrite Nat.sub_0_r in H1, H2. rewrite H1, H2. eauto.
    - intros (c & H & <-). destruct (nth_error m i) as [row|] eqn:Er; [|discriminate]. destruct (nth_error row j) as [v|] eqn:Ev; [|discriminate]. subst v.
      exists (i, row). rewrite enum_from_In, Nat.sub_0_r. split; [auto using Nat.le_0_l|]. apply in_flat_map. exists (j, Some c). rewrite enum_from_In, Nat.sub_0_r. split; [auto using Nat.le_0_l|now left].
  Qed.
  Lemma NoDup_app_intro {A} (l m : list A) : NoDup l -> NoDup m -> (forall x, In x l -> ~ In x m) -> NoDup (l ++ m).
  Proof.
    induction l as [|x l IH]; cbn; intros Hl Hm H; [exact Hm|]. inversion Hl; subst. constructor.
    - rewrite in_app_iff. intros [A1|A1]; [contradiction|]. apply (H x); auto.
    - apply IH; auto.
  Qed.
  Lemma get_triples_NoDup m : NoDup (sv_pairs (get_triples m)).
  Proof.
    unfold sv_pairs, Matrix.get_triples.
    assert (Row : forall (s : nat) (row : list (option C)) k, NoDup (map fst (flat_map (fun '(var, val) => match val with Some c => [(s, var, label c)] | None => [] end) (enum_from k row))) /\
      forall p : nat * nat, In p (map fst (flat_map (fun '(var, val) => match val with Some c => [(s, var, label c)] | None => [] end) (enum_from k row))) -> fst p = s /\ k <= snd p).
    { intros s row. induction row as [|v row IH]; intros k; [cbn; split; [constructor|intros p []]|].
      cbn [enum_from flat_map]. destruct (IH (S k)) as [N1 N2]. rewrite map_app. destruct v as [c|]; cbn [map app fst].
      - split; [constructor; [|exact N1]|].
        + intros Hin. apply N2 in Hin. cbn in Hin. lia.
        + intros p [<-|Hp]; [cbn; lia|]. apply N2 in Hp. lia.
      - split; [exact N1|]. intros p Hp. apply N2 in Hp. lia. }
    assert (G : forall (m : matrix C) k, NoDup (map fst (flat_map (fun '(source, row) => flat_map (fun '(var, val) => match val with Some c => [(source, var, label c)] | None => [] end) (enum_from 0 row)) (enum_from k m))) /\
      forall p : nat * nat, In p (map fst (flat_map (fun '(source, row) => flat_map (fun '(var, val) => match val with Some c => [(source, var, label c)] | None => [] end) (enum_from 0 row)) (enum_from k m))) -> k <= fst p).
    { clear m. induction m as [|row m IH]; intros k; [cbn; split; [constructor|intros p []]|].
      cbn [enum_from flat_map]. destruct (IH (S k)) as [N1 N2]. destruct (Row k row 0) as [R1 R2]. rewrite map_app. split.
      - apply NoDup_app_intro; [exact R1|exact N1|]. intros p Hp Hq. apply R2 in Hp. apply N2 in Hq. lia.
      - intros p Hp. apply in_app_or in Hp. destruct Hp as [Hp|Hp]; [apply R2 in Hp; lia|apply N2 in Hp; lia]. }
    apply G.
  Qed.
  Lemma get_triples_first m i j : first_claim (get_triples m) i j = option_map label (cell m i j).
  Proof.
    pose proof (fun w => first_claim_NoDup (get_triples m) i j w (get_triples_NoDup m)) as Q.
    destruct (cell m i j) as [c|] eqn:Ec.
    - apply Q. apply get_triples_In. apply holds_true. eauto.
    - destruct (first_claim (get_triples m) i j) as [w|] eqn:E; [|reflexivity]. assert (In (i, j, w) (get_triples m)) by (now apply Q).
      apply get_triples_In, holds_true in H. destruct H as (c & H & _). congruence.
  Qed.

  (** the multiple-claims error cannot occur *)
  Theorem C09_never_multiple b impf (m : matrix C) s x : matrix_dataset b impf m <> Err (MultipleClaims s x).
  Proof.
    unfold Matrix.matrix_dataset. destruct b.
    - intros E. destruct (build_allow impf (get_triples m)) as [(_ & d & E' & _)|(_ & E')]; congruence.
    - destruct (build_strict impf (get_triples m)) as [(ND & _ & d & E' & _)|[(ND & _ & E')|(s' & x' & R & E')]]; rewrite ?E'; try congruence.
      intros E. assert (N := get_triples_NoDup m).
      exfalso. destruct R as (pre & w & post & Et & _ & Hp).
      unfold sv_pairs in N. rewrite Et, map_app in N. cbn in N. apply NoDup_remove_2 in N. apply N. apply in_or_app. left. exact Hp.
  Qed.
  (** source i claims variable j = w iff cell (i, j) is unmasked and holds w; masked rows and columns are absent *)
  Theorem C09_matrix_dataset b impf (m : matrix C) d : matrix_dataset b impf m = Ok d ->
    (forall i, source_id d i <> None <-> exists j c, cell m i j = Some c) /\
    (forall j, variable_id d j <> None <-> exists i c, cell m i j = Some c) /\
    (forall j w, claim_id d (j, w) <> None <-> exists i c, cell m i j = Some c /\ label c = w) /\
    (forall i j w a k, source_id d i = Some a -> claim_id d (j, w) = Some k ->
       at_ (sc d) a k = if holds m i j w then n_ofZ 1 else n_ofZ 0).
  Proof.
    intros H. unfold Matrix.matrix_dataset in H. apply build_rep in H. set (ts := get_triples m) in *.
    assert (Some_iff : forall {A} (o : option A), o <> None <-> exists a, o = Some a) by (intros A [a|]; split; [eauto|discriminate|congruence|intros (? & ?); discriminate]).
    assert (Nth : forall {A} (l : list A) x, (exists i, nth_error l i = Some x) <-> In x l) by (intros A l x; split; [intros [i Hi]; now apply nth_error_In in Hi|apply In_nth_error]).
    assert (Hcell : forall i j, (exists w, In (i, j, w) ts) <-> exists c, cell m i j = Some c).
    { intros i j. split; [intros (w & Hw); apply get_triples_In, holds_true in Hw; destruct Hw as (c & Hc & _); eauto|].
      intros (c & Hc). exists (label c). apply get_triples_In, holds_true. eauto. }
    assert (SV : forall i, In i (sources ts) <-> exists j w, In (i, j, w) ts).
    { intros i. unfold sources. rewrite distinct_In, in_map_iff. split; [intros ([[s x] w] & <- & Ht); eauto|intros (j & w & Ht); exists (i, j, w); auto]. }
    assert (VV : forall j, In j (variables ts) <-> exists i w, In (i, j, w) ts).
    { intros j. unfold variables. rewrite distinct_In, in_map_iff. split; [intros ([[s x] w] & <- & Ht); eauto|intros (i & w & Ht); exists (i, j, w); auto]. }
    repeat apply conj.
    - intros i. rewrite Some_iff. unfold source_id. rewrite (rep_src _ _ _ H). setoid_rewrite (get_id_ids_iff _ _ _ (sources_NoDup ts)). rewrite Nth, SV.
      split; intros (j & Q); exists j; now apply Hcell.
    - intros j. rewrite Some_iff. unfold variable_id. rewrite (rep_var _ _ _ H). setoid_rewrite (get_id_ids_iff _ _ _ (variables_NoDup ts)). rewrite Nth, VV.
      split; intros (i & Q); exists i; now apply Hcell.
    - intros j w. rewrite Some_iff. setoid_rewrite (fun k => claim_id_rep ts impf d (j, w) k H). rewrite Nth, claims_In. split.
      + intros (s & Q). apply says_true in Q. unfold ts in Q. rewrite get_triples_first in Q. exists s. cbn in Q. destruct (cell m s j) as [c|]; [|discriminate]. exists c. split; [reflexivity|cbn in Q; congruence].
      + intros (i & c & Hc & <-). exists i. apply says_true. unfold ts. rewrite get_triples_first. cbn [fst snd]. now rewrite Hc.
    - intros i j w a k Ha Hk. unfold source_id in Ha. rewrite (rep_src _ _ _ H) in Ha. apply (get_id_ids_iff _ _ _ (sources_NoDup ts)) in Ha.
      apply (claim_id_rep _ _ _ _ _ H) in Hk. destruct (rep_sc _ _ _ H) as (_ & _ & Hm). destruct (Hm a k i (j, w) Ha Hk) as [H1 H2].
      assert (E : holds m i j w = says ts i (j, w)) by (unfold holds, says; cbn [fst snd]; unfold ts; now rewrite get_triples_first).
      unfold at_. rewrite E, H1. destruct (says ts i (j, w)); [now apply H2|reflexivity].
  Qed.
  (** so a matrix is always accepted (implication values in range, if there is an implication function) *)
  Theorem C09_matrix_accepted b (m : matrix C) : exists d, matrix_dataset b None m = Ok d.
  Proof.
    destruct (matrix_dataset b None m) as [d|e] eqn:E; [eauto|]. exfalso.
    destruct (C05_no_other_failure b None (get_triples m) e E) as [->|(s & x & ->)]; [|exact (C09_never_multiple b None m s x E)].
    unfold Matrix.matrix_dataset in E. destruct b.
    - destruct (build_allow (F:=F) None (get_triples m)) as [(_ & d & E' & _)|(N & _)]; [congruence|]. apply N. intros c c' q _ _ H. unfold imp_val in H. destruct (_ && _)%bool; discriminate.
    - destruct (build_strict (F:=F) None (get_triples m)) as [(ND & _ & d & E' & _)|[(_ & N & _)|(s' & x' & R & E')]]; try congruence.
      apply N. intros c c' q _ _ H. unfold imp_val in H. destruct (_ && _)%bool; discriminate.
  Qed.
End MatrixData.

(** * C10 *)
Section Csv.
  Context {C : Type}.
  Variable parse : pystr -> option (option C).
  Notation csv := (csv_to_masked_array parse).

  (** the cells of a CSV text: lines of the stripped text, each split at commas, white space around each cell removed *)
  Definition text_cells (text : pystr) : list (list pystr) := map (fun line => map strip (split_on comma line)) (split_on newline (strip text)).
  (** the number of cells of the first line *)
  Definition text_width (text : pystr) : nat := length (hd [] (text_cells text)).
  (** a cell is blank, or a number Python's float() accepts *)
  Definition readable (val : pystr) : Prop := val = [] \/ parse val <> None.
  (** its value: None (masked) for blank and NaN *)
  Definition value_of (val : pystr) : option C := match val with [] => None | _ => match parse val with Some v => v | None => None end end.
  Definition good_row (w : nat) (row : list pystr) : Prop := length row = w /\ forall val, In val row -> readable val.

  Lemma read_cell_ok val : readable val -> read_cell parse val = Ok (value_of val).
  Proof. intros [->|H]; [reflexivity|]. unfold read_cell, value_of. destruct val; [reflexivity|]. destruct (parse _); [reflexivity|congruence]. Qed.
  Lemma readable_dec val : {readable val} + {~ readable val}.
  Proof. destruct val as [|c t]; [left; now left|]. destruct (parse (c :: t)) eqn:E; [left; right; congruence|right; intros [H|H]; congruence]. Qed.
  Lemma read_cell_bad val : ~ readable val -> read_cell parse val = Err (BadFloat val).
  Proof. intros H. unfold read_cell. destruct val as [|c t]; [exfalso; apply H; now left|]. destruct (parse (c :: t)) eqn:E; [|reflexivity]. exfalso. apply H. right. congruence. Qed.
  (** either the whole row is readable, or there is a first unreadable cell *)
  Lemma read_row row : (mapM (read_cell parse) row = Ok (map value_of row) /\ forall val, In val row -> readable val) \/
    (exists a val b, row = a ++ val :: b /\ (forall v, In v a -> readable v) /\ ~ readable val /\ mapM (read_cell parse) row = Err (BadFloat val)).
  Proof.
    induction row as [|v row IH]; [left; split; [reflexivity|intros ? []]|]. cbn [mapM]. destruct (readable_dec v) as [H|H].
    - rewrite (read_cell_ok v H). cbn [bind]. destruct IH as [[E G]|(a & val & b & -> & Ha & Hv & E)].
      + left. rewrite E. split; [reflexivity|]. intros x [<-|Hx]; auto.
      + right. exists (v :: a), val, b. rewrite E. repeat split; auto. intros x [<-|Hx]; auto.
    - right. exists [], v, row. rewrite (read_cell_bad v H). repeat split; auto. intros ? [].
  Qed.
  (** the loop with a known width *)
  Definition rows_of (lines : list pystr) : list (list pystr) := map split_row lines.
  Lemma csv_loop_spec lines i w :
    (csv_loop parse i (Some w) lines = Ok (map (map value_of) (rows_of lines)) /\ forall row, In row (rows_of lines) -> good_row w row) \/
    (exists pre row post, rows_of lines = pre ++ row :: post /\ (forall r, In r pre -> good_row w r) /\ length row <> w /\
       csv_loop parse i (Some w) lines = Err (Ragged w (i + length pre + 1) (length row))) \/
    (exists pre row post a val b, rows_of lines = pre ++ row :: post /\ (forall r, In r pre -> good_row w r) /\ length row = w /\
       row = a ++ val :: b /\ (forall v, In v a -> readable v) /\ ~ readable val /\ csv_loop parse i (Some w) lines = Err (BadFloat val)).
  Proof.
    revert i. induction lines as [|line lines IH]; intros i; [left; split; [reflexivity|intros ? []]|].
    unfold rows_of. cbn [map csv_loop]. cbv zeta. fold (rows_of lines). destruct (Nat.eqb_spec (length (split_row line)) w) as [E|N].
    - destruct (read_row (split_row line)) as [[Er G]|(a & val & b & Es & Ha & Hv & Er)]; rewrite Er; cbn [bind].
      + destruct (IH (S i)) as [[El Gl]|[(pre & row & post & El & Gp & Nw & Ee)|(pre & row & post & a & val & b & El & Gp & Ew & Eab & Ha & Hv & Ee)]].
        * left. rewrite El. split; [reflexivity|]. intros row [<-|Hr]; [split; auto|auto].
        * right. left. exists (split_row line :: pre), row, post. rewrite El, Ee. cbn [bind]. repeat split; auto.
          -- destruct H as [<-|H]; [exact E|now apply Gp].
          -- intros val Hv. destruct H as [<-|H]; [now apply G|]. now apply (Gp r H).
          -- do 2 f_equal. cbn [length]. lia.
        * right. right. exists (split_row line :: pre), row, post, a, val, b. rewrite El, Ee. cbn [bind].
          split; [reflexivity|]. split; [intros r [<-|Hr]; [split; auto|auto]|]. auto.
      + right. right. exists [], (split_row line), (rows_of lines), a, val, b. split; [reflexivity|]. split; [intros ? []|]. auto.
    - right. left. exists [], (split_row line), (rows_of lines). split; [reflexivity|]. split; [intros ? []|]. split; [exact N|]. cbn [length]. do 2 f_equal. lia.
  Qed.
  Lemma csv_as_loop text : csv text = csv_loop parse 0 (Some (text_width text)) (split_on newline (strip text)).
  Proof.
    unfold csv_to_masked_array, text_width, text_cells. pose proof (split_on_nonempty newline (strip text)) as NE.
    destruct (split_on newline (strip text)) as [|line lines]; [congruence|]. cbn [map hd csv_loop]. cbv zeta.
    change (map strip (split_on comma line)) with (split_row line). now rewrite Nat.eqb_refl.
  Qed.

  (** the text is accepted iff every line has as many cells as the first and every non-blank cell is a number *)
  Theorem C10_accepts_iff text : (exists m, csv text = Ok m) <-> forall row, In row (text_cells text) -> good_row (text_width text) row.
  Proof.
    rewrite csv_as_loop. destruct (csv_loop_spec (split_on newline (strip text)) 0 (text_width text)) as [[El Gl]|[(pre & row & post & El & Gp & Nw & Ee)|(pre & row & post & a & val & b & El & Gp & Ew & Eab & Ha & Hv & Ee)]].
    - split; [intros _; exact Gl|intros _; eauto].
    - split; [intros [m Hm]; congruence|]. intros H. exfalso. apply Nw. apply (H row). unfold text_cells. change (In row (rows_of (split_on newline (strip text)))). rewrite El. apply in_elt.
    - split; [intros [m Hm]; congruence|]. intros H. exfalso. apply Hv. apply (H row); [|rewrite Eab; apply in_elt]. change (In row (rows_of (split_on newline (strip text)))). rewrite El. apply in_elt.
  Qed.
  (** and then every cell has its value, masked iff blank or NaN *)
  Theorem C10_matrix text m : csv text = Ok m -> m = map (map value_of) (text_cells text).
  Proof.
    rewrite csv_as_loop. destruct (csv_loop_spec (split_on newline (strip text)) 0 (text_width text)) as [[El Gl]|[(pre & row & post & El & Gp & Nw & Ee)|(pre & row & post & a & val & b & El & Gp & Ew & Eab & Ha & Hv & Ee)]]; intros E; try congruence.
    rewrite El in E. injection E as <-. reflexivity.
  Qed.
  Theorem C10_cell text m i j : csv text = Ok m ->
    cell m i j = match nth_error (text_cells text) i with
                 | Some row => match nth_error row j with Some val => value_of val | None => None end
                 | None => None
                 end.
  Proof.
    intros E. apply C10_matrix in E. subst m. unfold cell. rewrite nth_error_map. destruct (nth_error (text_cells text) i) as [row|]; [|reflexivity]. cbn [option_map].
    rewrite nth_error_map. now destruct (nth_error row j).
  Qed.
  (** the matrix has one row per line, all of the same non-zero length *)
  Theorem C10_shape text m : csv text = Ok m -> length m = length (text_cells text) /\ m <> [] /\ 1 <= text_width text /\ forall row, In row m -> length row = text_width text.
  Proof.
    intros E. assert (A : exists m, csv text = Ok m) by eauto. pose proof (proj1 (C10_accepts_iff text) A) as G. apply C10_matrix in E. subst m.
    pose proof (split_on_nonempty newline (strip text)) as NE. split; [apply map_length|]. split; [|split].
    - unfold text_cells. destruct (split_on newline (strip text)); [congruence|discriminate].
    - unfold text_width, text_cells. destruct (split_on newline (strip text)) as [|l ls]; [congruence|]. cbn [map hd]. rewrite map_length. pose proof (split_on_nonempty comma l). destruct (split_on comma l); [congruence|cbn; lia].
    - intros row Hr. apply in_map_iff in Hr. destruct Hr as (r & <- & Hr). rewrite map_length. now apply G.
  Qed.
  (** otherwise the ValueError names the first offence: rows are checked in order, width before contents *)
  Theorem C10_ragged_iff text w k g : csv text = Err (Ragged w k g) <->
    exists pre row post, text_cells text = pre ++ row :: post /\ (forall r, In r pre -> good_row (text_width text) r) /\
      length row <> text_width text /\ w = text_width text /\ k = length pre + 1 /\ g = length row.
  Proof.
    rewrite csv_as_loop. assert (Once : forall pre row post pre' row' post', pre ++ row :: post = pre' ++ row' :: post' ->
      (forall r, In r pre -> good_row (text_width text) r) -> (forall r, In r pre' -> good_row (text_width text) r) -> length row <> text_width text -> ~ good_row (text_width text) row' -> pre = pre' /\ row = row').
    { induction pre as [|x pre IH]; intros row post [|y pre'] row' post' E Gp Gp' N N'; cbn in E.
      - injection E as -> _. auto.
      - injection E as -> _. exfalso. apply N. apply (Gp' y). now left.
      - injection E as -> _. exfalso. apply N'. apply Gp. now left.
      - injection E as -> E. destruct (IH row post pre' row' post' E) as [-> ->]; auto; intros r Hr; [apply Gp|apply Gp']; now right. }
    destruct (csv_loop_spec (split_on newline (strip text)) 0 (text_width text)) as [[El Gl]|[(pre & row & post & El & Gp & Nw & Ee)|(pre & row & post & a & val & b & El & Gp & Ew & Eab & Ha & Hv & Ee)]].
    - split; [congruence|]. intros (pre & row & post & E & _ & Nw & _). exfalso. apply Nw. apply (Gl row). change (rows_of (split_on newline (strip text))) with (text_cells text). rewrite E. apply in_elt.
    - rewrite Ee. split.
      + intros [= <- <- <-]. exists pre, row, post. repeat split; auto; try (now apply Gp). 
      + intros (pre' & row' & post' & E & Gp' & Nw' & -> & -> & ->). change (rows_of (split_on newline (strip text))) with (text_cells text) in El. rewrite El in E.
        destruct (Once _ _ _ _ _ _ E Gp Gp' Nw) as [-> ->]; [intros [Q _]; contradiction|]. reflexivity.
    - split; [congruence|]. intros (pre' & row' & post' & E & Gp' & Nw' & _). exfalso. change (rows_of (split_on newline (strip text))) with (text_cells text) in El. rewrite El in E. symmetry in E.
      destruct (Once _ _ _ _ _ _ E Gp' Gp Nw') as [_ Er]; [|congruence]. intros [_ Q]. apply Hv. apply Q. rewrite Eab. apply in_elt.
  Qed.
  Theorem C10_bad_number text val : csv text = Err (BadFloat val) ->
    exists pre row post a b, text_cells text = pre ++ row :: post /\ (forall r, In r pre -> good_row (text_width text) r) /\
      length row = text_width text /\ row = a ++ val :: b /\ (forall v, In v a -> readable v) /\ ~ readable val.
  Proof.
    rewrite csv_as_loop. destruct (csv_loop_spec (split_on newline (strip text)) 0 (text_width text)) as [[El Gl]|[(pre & row & post & El & Gp & Nw & Ee)|(pre & row & post & a & v & b & El & Gp & Ew & Eab & Ha & Hv & Ee)]]; intros E; try congruence.
    rewrite Ee in E. injection E as <-. exists pre, row, post, a, b. auto 10.
  Qed.
  (** MatrixDataset.from_csv: succeeds with the dataset of the matrix exactly when the text is accepted; the only
      error is the ValueError about the CSV text *)
  Theorem C10_from_csv {W} `{Eqb W} {F : Num} {FOK : NumOK F} (label : C -> W) text :
    match csv text with
    | Ok m => exists d : dataset nat nat W F, matrix_from_csv label parse text = Ok (m, d) /\ matrix_dataset label false None m = Ok d
    | Err e => matrix_from_csv (F:=F) label parse text = Err (InvalidCsv e)
    end.
  Proof.
    unfold matrix_from_csv. destruct (csv text) as [m|e]; [|reflexivity]. cbn [lift_csv bind]. destruct (C09_matrix_accepted (F:=F) label false m) as [d E]. exists d. rewrite E. auto.
  Qed.

  (** * C12 *)
  Lemma true_values_get (row : list (option C)) j : dget (true_values row) j = match nth_error row j with Some v => v | None => None end.
  Proof.
    unfold true_values. assert (G : forall k, dget (flat_map (fun '(i, v) => match v with Some c => [(i, c)] | None => [] end) (enum_from k row)) j =
      if k <=? j then match nth_error row (j - k) with Some v => v | None => None end else None).
    { induction row as [|v row IH]; intros k; cbn [enum_from flat_map].
      - cbn. destruct (k <=? j); [now destruct (j - k)|reflexivity].
      - destruct v as [c|]; cbn [app dget].
        + change (beq j k) with (Nat.eqb j k). destruct (Nat.eqb_spec j k) as [->|N].
          * rewrite Nat.leb_refl, Nat.sub_diag. reflexivity.
          * rewrite IH. destruct (Nat.leb_spec (S k) j), (Nat.leb_spec k j); try lia; [|reflexivity]. now replace (j - k) with (S (j - S k)) by lia.
        + rewrite IH. destruct (Nat.leb_spec (S k) j), (Nat.leb_spec k j); try lia; try reflexivity.
          * now replace (j - k) with (S (j - S k)) by lia.
          * replace (j - k) with 0 by lia. reflexivity. }
    rewrite G. cbn. now rewrite Nat.sub_0_r.
  Qed.
  (** the first row gives the known true values, the other rows, renumbered from 0, the dataset *)
  Theorem C12_supervised_csv {W} `{Eqb W} {F : Num} {FOK : NumOK F} (label : C -> W) text :
    match csv text with
    | Ok m => exists vals sv (d : dataset nat nat W F), supervised_from_csv label parse text = Ok (vals, sv, d) /\
        (forall j, dget vals j = cell m 0 j) /\ (forall i j, cell sv i j = cell m (S i) j) /\ length sv = length m - 1 /\
        matrix_dataset label false None sv = Ok d
    | Err e => supervised_from_csv (F:=F) label parse text = Err (InvalidCsv e)
    end.
  Proof.
    unfold supervised_from_csv. destruct (csv text) as [m|e] eqn:Em; [|reflexivity]. cbn [lift_csv bind]. destruct (C10_shape text m Em) as (_ & NE & _ & _).
    destruct m as [|r0 m]; [congruence|]. cbn [tl hd]. destruct (C09_matrix_accepted (F:=F) label false m) as [d E]. rewrite E. exists (true_values r0), m, d.
    split; [reflexivity|]. split; [intros j; apply true_values_get|]. split; [reflexivity|]. split; [cbn; lia|exact E].
  Qed.
  Theorem C12_true_values_once row : NoDup (dkeys (true_values (C:=C) row)).
  Proof.
    unfold true_values, dkeys. assert (G : forall k, NoDup (map fst (flat_map (fun '(i, v) => match v with Some c => [(i, c)] | None => [] end) (enum_from k row))) /\
      forall p, In p (map fst (flat_map (fun '(i, v) => match v with Some c => [(i, c)] | None => [] end) (enum_from k row))) -> k <= p); [|apply G].
    induction row as [|v row IH]; intros k; [cbn; split; [constructor|intros ? []]|]. cbn [enum_from flat_map]. destruct (IH (S k)) as [N1 N2]. destruct v as [c|]; cbn [app map fst].
    - split; [constructor; [|exact N1]|]; [intros Hin; apply N2 in Hin; lia|]. intros p [<-|Hp]; [lia|apply N2 in Hp; lia].
    - split; [exact N1|]. intros p Hp. apply N2 in Hp. lia.
  Qed.
End Csv.

(** * C11 *)
Section RoundTrip.
  Context {C : Type}.
  Variable parse : pystr -> option (option C).
  Variable show : C -> pystr.
  Notation csv := (csv_to_masked_array parse).
  Notation to_csv := (to_csv show).

  (** what is assumed of Python's float() and str(): reading back what was printed gives the same number, and what is
      printed is not blank and contains no comma or white space *)
  Definition prints_numbers : Prop := forall c, parse (show c) = Some (Some c) /\ show c <> [] /\ forall ch, In ch (show c) -> is_space ch = false /\ ch <> comma.
  Hypothesis OK : prints_numbers.

  (** m is a matrix with w columns *)
  Definition columns (m : matrix C) (w : nat) : Prop := forall row, In row m -> length row = w.
  Notation row_text := (fun row : list (option C) => join [comma] (map (show_cell show) row)).

  Lemma show_cell_chars c ch : In ch (show_cell show c) -> is_space ch = false /\ ch <> comma.
  Proof. destruct c as [c|]; [apply (OK c)|intros []]. Qed.
  Lemma show_cell_nil c : show_cell show c = [] <-> c = None.
  Proof. destruct c as [c|]; cbn; [|tauto]. destruct (OK c) as (_ & N & _). split; [congruence|discriminate]. Qed.
  Lemma show_cell_value c : value_of parse (strip (show_cell show c)) = c /\ readable parse (strip (show_cell show c)).
  Proof.
    destruct c as [c|]; cbn [show_cell]; [|split; [reflexivity|now left]]. destruct (OK c) as (P & N & Hc).
    assert (E : strip (show c) = show c).
    { apply strip_id. split; [destruct (show c) as [|x t]; [exact I|apply Hc; now left]|]. destruct (rev (show c)) as [|x t] eqn:Er; [exact I|]. apply Hc. apply in_rev. rewrite Er. now left. }
    rewrite E. unfold value_of, readable. destruct (show c) as [|x t] eqn:Es; [congruence|]. rewrite P. split; [reflexivity|right; congruence].
  Qed.
  Lemma row_text_chars row ch : In ch (row_text row) -> ch = comma \/ is_space ch = false.
  Proof.
    induction row as [|c row IH]; [intros []|]. destruct row as [|c' row].
    - cbn. intros H. right. now apply show_cell_chars in H.
    - change (row_text (c :: c' :: row)) with (show_cell show c ++ comma :: row_text (c' :: row)). intros H. apply in_app_or in H. destruct H as [H|[<-|H]]; auto. right. now apply show_cell_chars in H.
  Qed.
  Lemma row_text_nonspace row ch : In ch (row_text row) -> is_space ch = false.
  Proof. intros H. apply row_text_chars in H. destruct H as [->|H]; [reflexivity|exact H]. Qed.
  Lemma row_text_split row : row <> [] -> split_row (row_text row) = map (fun c => strip (show_cell show c)) row.
  Proof.
    intros NE. unfold split_row. rewrite split_join; [now rewrite map_map|destruct row; [congruence|discriminate]|].
    intros p Hp. apply in_map_iff in Hp. destruct Hp as (c & <- & _). intros Hin. apply show_cell_chars in Hin. now destruct Hin as [_ []].
  Qed.
  Lemma row_text_nil row : row_text row = [] <-> row = [] \/ row = [None].
  Proof.
    destruct row as [|c row]; [tauto|]. destruct row as [|c' row]; cbn [map join].
    - rewrite show_cell_nil. split; [intros ->; auto|intros [H|H]; congruence].
    - split; [|intros [H|H]; discriminate]. intros H. apply app_eq_nil in H. destruct H as [_ H]. discriminate.
  Qed.
  (** a text made of the lines of a matrix reads back as that matrix *)
  Lemma lines_read (m : matrix C) w text : m <> [] -> 1 <= w -> columns m w -> split_on newline (strip text) = map row_text m -> csv text = Ok m.
  Proof.
    intros NE Hw Hm E. assert (Cells : text_cells text = map (map (fun c => strip (show_cell show c))) m).
    { unfold text_cells. rewrite E, map_map. apply map_ext_in. intros row Hr. apply row_text_split. intros ->. specialize (Hm [] Hr). cbn in Hm. lia. }
    assert (A : exists m', csv text = Ok m').
    { apply C10_accepts_iff. intros row Hr. unfold text_width. rewrite Cells in *. destruct m as [|r0 m]; [congruence|]. cbn [map hd]. rewrite map_length, (Hm r0) by now left.
      apply in_map_iff in Hr. destruct Hr as (r & <- & Hr). split; [rewrite map_length; now apply Hm|]. intros val Hv. apply in_map_iff in Hv. destruct Hv as (c & <- & _). apply show_cell_value. }
    destruct A as [m' A]. rewrite A. f_equal. apply C10_matrix in A. rewrite A, Cells, map_map. transitivity (map (fun r => r) m); [|apply map_id]. apply map_ext. intros r. rewrite map_map.
    transitivity (map (fun c => c) r); [|apply map_id]. apply map_ext. intros c. apply show_cell_value.
  Qed.
  Lemma row_text_no_newline row : ~ In newline (row_text row).
  Proof. intros H. apply row_text_nonspace in H. discriminate. Qed.
  Lemma lines_split (m : matrix C) : m <> [] -> split_on newline (to_csv m) = map row_text m.
  Proof.
    intros NE. unfold Matrix.to_csv. apply split_join; [destruct m; [congruence|discriminate]|]. intros p Hp. apply in_map_iff in Hp. destruct Hp as (row & <- & _). apply row_text_no_newline.
  Qed.
  (** text with a non-blank first and last line *)
  Lemma join_edges (ps : list pystr) : ps <> [] -> hd [] ps <> [] -> last ps [] <> [] -> (forall p c, In p ps -> In c p -> is_space c = false) -> no_edge_space (join [newline] ps).
  Proof.
    intros NE H0 H1 Hc. split.
    - destruct ps as [|p ps]; [congruence|]. cbn in H0. destruct p as [|c p]; [congruence|]. destruct ps; cbn; apply (Hc (c :: p)); now left.
    - assert (G : exists s, rev (join [newline] ps) = rev (last ps []) ++ s).
      { clear -NE. induction ps as [|p ps IH]; [congruence|]. destruct ps as [|q ps]; [exists []; now rewrite app_nil_r|]. destruct IH as [s Hs]; [discriminate|].
        change (join [newline] (p :: q :: ps)) with (p ++ newline :: join [newline] (q :: ps)). rewrite rev_app_distr. cbn [rev]. rewrite Hs.
        change (last (p :: q :: ps) []) with (last (q :: ps) []). exists ((s ++ [newline]) ++ rev p). now rewrite !app_assoc. }
      destruct G as [s ->]. assert (Hl : In (last ps []) ps).
      { clear -NE. induction ps as [|p ps IH]; [congruence|]. destruct ps as [|q ps]; [now left|]. right. apply IH. discriminate. }
      destruct (rev (last ps [])) as [|c t] eqn:Er; [exfalso; apply H1; rewrite <- (rev_involutive (last ps [])), Er; reflexivity|]. cbn. apply (Hc _ c Hl). apply in_rev. rewrite Er. now left.
  Qed.

  (** the condition under which nothing is lost *)
  Definition keeps (m : matrix C) (w : nat) : Prop := 2 <= w \/ length m = 1 \/ (cell m 0 0 <> None /\ cell m (length m - 1) 0 <> None).

  Lemma keeps_round_trip (m : matrix C) w : m <> [] -> 1 <= w -> columns m w -> keeps m w -> csv (to_csv m) = Ok m.
  Proof.
    intros NE Hw Hm K. apply (lines_read m w); auto. destruct (Nat.eq_dec (length m) 1) as [L|L].
    - (* a single row *) destruct m as [|r [|]]; cbn in L; try lia. rewrite <- (lines_split [r]) by discriminate. f_equal. apply strip_id. change (to_csv [r]) with (row_text r). split.
      + destruct (row_text r) as [|c t] eqn:E; [exact I|]. apply (row_text_nonspace r). rewrite E. now left.
      + destruct (rev (row_text r)) as [|c t] eqn:E; [exact I|]. apply (row_text_nonspace r). apply in_rev. rewrite E. now left.
    - rewrite <- lines_split by exact NE. f_equal. apply strip_id. unfold Matrix.to_csv.
      assert (Ln : forall r, In r m -> (2 <= w \/ nth_error r 0 <> Some None) -> row_text r <> []).
      { intros r Hr Q E. apply row_text_nil in E. specialize (Hm r Hr). destruct E as [->| ->]; cbn in Hm; [lia|]. destruct Q as [Q|Q]; [lia|now apply Q]. }
      assert (Hd : exists r0 rest, m = r0 :: rest) by (destruct m as [|r0 rest]; [congruence|eauto]). destruct Hd as (r0 & rest & Em).
      assert (Ell : exists front rl, m = front ++ [rl]) by (destruct (exists_last NE) as (front & rl & E); eauto). destruct Ell as (front & rl & El).
      apply join_edges.
      + rewrite Em. discriminate.
      + rewrite Em. cbn [map hd]. apply Ln; [rewrite Em; now left|]. destruct K as [K|[K|[K _]]]; [now left|contradiction|]. right. unfold cell in K. rewrite Em in K. cbn in K. intros Q. cbn in Q. rewrite Q in K. congruence.
      + rewrite El, map_app. cbn [map]. rewrite last_last. apply Ln; [rewrite El; apply in_elt|]. destruct K as [K|[K|[_ K]]]; [now left|contradiction|]. right. unfold cell in K. rewrite El in K.
        rewrite app_length in K. cbn [length] in K. replace (length front + 1 - 1) with (length front) in K by lia. rewrite nth_error_app2, Nat.sub_diag in K by lia. cbn in K. intros Q. cbn in Q. rewrite Q in K. congruence.
      + intros p c Hp Hc. apply in_map_iff in Hp. destruct Hp as (row & <- & _). now apply row_text_nonspace in Hc.
  Qed.

  (** a single-column matrix without the masked rows at its ends *)
  Fixpoint drop_masked (m : matrix C) : matrix C := match m with [None] :: rest => drop_masked rest | _ => m end.
  Definition trim (m : matrix C) : matrix C := match rev (drop_masked (rev (drop_masked m))) with [] => [[None]] | t => t end.

  Lemma drop_masked_app (m : matrix C) : exists k, m = repeat [None] k ++ drop_masked m /\ match drop_masked m with [None] :: _ => False | _ => True end.
  Proof.
    unfold matrix in m. induction m as [|r m IH]; [exists 0; cbn; auto|]. destruct IH as (k & E & H). destruct r as [|[c|] [|]]; try (exists 0; cbn; auto; fail).
    exists (S k). cbn [drop_masked repeat app]. split; [now f_equal|exact H].
  Qed.
  Lemma lstrip_newlines k s : lstrip (repeat newline k ++ s) = lstrip s.
  Proof. apply lstrip_space. intros c Hc. apply repeat_spec in Hc. now subst. Qed.
  Lemma rep_snoc {A} (x : A) k : repeat x k ++ [x] = x :: repeat x k.
  Proof. induction k as [|k IH]; [reflexivity|]. cbn. now rewrite IH. Qed.
  Lemma rev_repeat {A} (x : A) k : rev (repeat x k) = repeat x k.
  Proof. induction k as [|k IH]; [reflexivity|]. cbn [repeat rev]. rewrite IH. apply rep_snoc. Qed.
  Lemma to_csv_masked_front k (m : matrix C) : m <> [] -> to_csv (repeat [None] k ++ m) = repeat newline k ++ to_csv m.
  Proof.
    intros NE. induction k as [|k IH]; [reflexivity|]. cbn [repeat app]. rewrite <- IH. unfold Matrix.to_csv. cbn [map]. destruct (map row_text (repeat [None] k ++ m)) as [|p ps] eqn:E; [|reflexivity].
    exfalso. destruct k; cbn in E; [destruct m; [congruence|discriminate]|discriminate].
  Qed.
  Lemma join_snoc sep ps p : ps <> [] -> join sep (ps ++ [p]) = join sep ps ++ sep ++ p.
  Proof. induction ps as [|q ps IH]; intros NE; [congruence|]. destruct ps as [|r ps]; [reflexivity|]. change (join sep ((q :: r :: ps) ++ [p])) with (q ++ sep ++ join sep ((r :: ps) ++ [p])). rewrite IH by discriminate. change (join sep (q :: r :: ps)) with (q ++ sep ++ join sep (r :: ps)). now rewrite !app_assoc. Qed.
  Lemma to_csv_masked_back k (m : matrix C) : m <> [] -> to_csv (m ++ repeat [None] k) = to_csv m ++ repeat newline k.
  Proof.
    intros NE. induction k as [|k IH]; [cbn; now rewrite !app_nil_r|]. cbn [repeat]. rewrite <- !rep_snoc, !app_assoc, <- IH. unfold Matrix.to_csv. rewrite (map_app _ (m ++ repeat [None] k)). cbn [map].
    rewrite join_snoc by (destruct m; [congruence|discriminate]). cbn. reflexivity.
  Qed.
  (** what comes back for a single-column matrix: exactly the masked rows at its ends are lost *)
  Theorem C11_single_column (m : matrix C) : m <> [] -> columns m 1 -> csv (to_csv m) = Ok (trim m).
  Proof.
    intros NE Hm. destruct (drop_masked_app m) as (k & E & Hh). unfold trim. set (m1 := drop_masked m) in *. destruct (drop_masked_app (rev m1)) as (j & E' & Hh'). set (m2 := drop_masked (rev m1)) in *. clearbody m2. clearbody m1.
    assert (E1 : m1 = rev m2 ++ repeat [None] j) by (rewrite <- (rev_involutive m1), E', rev_app_distr, rev_repeat; reflexivity).
    destruct (rev m2) as [|r0 rest] eqn:E2.
    - (* everything masked *) assert (Z : m = repeat [None] k ++ repeat [None] j) by (rewrite E, E1; reflexivity). rewrite <- repeat_app in Z.
      destruct (k + j) as [|n]; [cbn in Z; congruence|]. assert (T : strip (to_csv m) = []).
      { apply strip_all_space. rewrite Z. replace (repeat [None] (S n)) with (repeat [@None C] n ++ [[None]]) by apply rep_snoc. rewrite to_csv_masked_front by discriminate.
        cbn [Matrix.to_csv map join show_cell app]. rewrite app_nil_r. intros c Hc. apply repeat_spec in Hc. now subst. }
      apply (lines_read [[None]] 1); [discriminate|lia|intros r [<-|[]]; reflexivity|]. rewrite T. reflexivity.
    - set (m3 := r0 :: rest) in *. assert (NE3 : m3 <> []) by discriminate. assert (Z : m = repeat [None] k ++ m3 ++ repeat [None] j) by (rewrite E, E1; reflexivity).
      assert (Col : columns m3 1) by (intros r Hr; apply Hm; rewrite Z; apply in_or_app; right; apply in_or_app; now left).
      assert (Ks : keeps m3 1).
      { right. right. assert (A0 : cell m3 0 0 <> None).
        { unfold cell. cbn. assert (L0 : length r0 = 1) by (apply Col; now left). destruct r0 as [|[c|] [|]]; cbn in L0; try lia; [discriminate|].
          exfalso. rewrite E1 in Hh. exact Hh. }
        assert (A1 : exists rl front, m2 = rl :: front /\ m3 = rev front ++ [rl]) by (destruct m2 as [|rl front]; [cbn in E2; subst m3; discriminate|exists rl, front; split; [reflexivity|rewrite <- E2; reflexivity]]).
        destruct A1 as (rl & front & Em2 & Em3). split; [exact A0|]. rewrite Em3. rewrite app_length. cbn [length]. replace (length (rev front) + 1 - 1) with (length (rev front)) by lia.
        unfold cell. rewrite nth_error_app2, Nat.sub_diag by lia. cbn. assert (Ll : length rl = 1) by (apply Col; rewrite Em3; apply in_elt).
        destruct rl as [|[c|] [|]]; cbn in Ll; try lia; [discriminate|]. rewrite Em2 in Hh'. destruct Hh'. }
      pose proof (keeps_round_trip m3 1 NE3 ltac:(lia) Col Ks) as Q. rewrite <- Q. unfold csv_to_masked_array. do 2 f_equal.
      rewrite Z, to_csv_masked_front by (destruct m3; [congruence|discriminate]). rewrite to_csv_masked_back by exact NE3.
      assert (Edge : no_edge_space (to_csv m3)).
      { destruct (strip_decomp (to_csv m3)) as (a & b & Ha & Hb & Es & Hn). assert (strip (to_csv m3) = to_csv m3); [|congruence].
        apply strip_id. unfold Matrix.to_csv. apply join_edges.
        + discriminate.
        + destruct Ks as [K|[K|[K _]]]; [lia| |].
          * cbn [map hd m3]. intros Er. apply row_text_nil in Er. assert (L0 : length r0 = 1) by (apply Col; now left). destruct Er as [->| ->]; [cbn in L0; lia|]. rewrite E1 in Hh. exact Hh.
          * cbn [map hd m3]. intros Er. apply row_text_nil in Er. unfold cell in K. cbn in K. destruct Er as [->| ->]; now apply K.
        + assert (Lst : exists rl front, m2 = rl :: front /\ m3 = rev front ++ [rl]) by (destruct m2 as [|rl front]; [cbn in E2; subst m3; discriminate|exists rl, front; split; [reflexivity|rewrite <- E2; reflexivity]]).
          destruct Lst as (rl & front & Em2 & Em3). rewrite Em3, map_app. cbn [map]. rewrite last_last. intros Er. apply row_text_nil in Er. assert (Ll : length rl = 1) by (apply Col; rewrite Em3; apply in_elt).
          destruct Er as [->| ->]; [cbn in Ll; lia|]. rewrite Em2 in Hh'. exact Hh'.
        + intros p c Hp Hc. apply in_map_iff in Hp. destruct Hp as (row & <- & _). now apply row_text_nonspace in Hc. }
      assert (Sp : forall n, all_space (repeat newline n)) by (intros n c Hc; apply repeat_spec in Hc; now subst).
      rewrite strip_unique by auto. now rewrite strip_id.
  Qed.
  (** exporting and importing gives back the same cells and mask exactly under the condition [keeps] *)
  Theorem C11_round_trip_iff (m : matrix C) w : m <> [] -> 1 <= w -> columns m w -> (csv (to_csv m) = Ok m <-> keeps m w).
  Proof.
    intros NE Hw Hm. split; [|now apply keeps_round_trip]. intros E. destruct (Nat.le_gt_cases 2 w) as [L|L]; [now left|]. assert (w = 1) by lia. subst w.
    rewrite (C11_single_column m NE Hm) in E. injection E as E. destruct (Nat.eq_dec (length m) 1) as [L1|L1]; [right; now left|]. right. right.
    assert (Two : 2 <= length m) by (destruct m as [|? [|]]; cbn in *; try congruence; lia). unfold trim in E.
    destruct (drop_masked_app m) as (k & Ek & Hh). set (m1 := drop_masked m) in *. destruct (drop_masked_app (rev m1)) as (j & Ej & Hh'). set (m2 := drop_masked (rev m1)) in *. clearbody m2. clearbody m1.
    destruct (rev m2) as [|r0 rest] eqn:E2; [rewrite <- E in Two; cbn in Two; lia|].
    assert (Lm : length m = k + (j + length m2)) by (rewrite Ek, app_length, repeat_length, <- (rev_length m1), Ej, app_length, repeat_length; reflexivity).
    assert (Lm2 : length m = length m2) by (rewrite <- E, <- E2, rev_length; reflexivity). assert (k = 0) by lia. assert (j = 0) by lia. subst k j. cbn in Ek, Ej.
    assert (Hne : forall r, length r = 1 -> match r with [None] => False | _ => True end -> match nth_error r 0 with Some c => c | None => None end <> @None C).
    { intros [|[c|] [|]] Lr Hr; cbn in *; try lia; try contradiction; discriminate. }
    split.
    - unfold cell. destruct m as [|r m']; [congruence|]. cbn [nth_error]. apply Hne; [apply Hm; now left|]. rewrite <- Ek in Hh. destruct r as [|[c|] [|]]; auto.
    - destruct (rev m1) as [|rl fr] eqn:Er; [rewrite <- Ek in Er; apply (f_equal (@length _)) in Er; rewrite rev_length in Er; cbn in Er; lia|].
      assert (Em : m = rev fr ++ [rl]) by (rewrite Ek, <- (rev_involutive m1), Er; reflexivity). unfold cell. rewrite Em at 1 2. rewrite app_length. cbn [length]. replace (length (rev fr) + 1 - 1) with (length (rev fr)) by lia.
      rewrite Em at 1 || idtac. rewrite nth_error_app2, Nat.sub_diag by lia. cbn [nth_error]. apply Hne; [apply Hm; rewrite Em; apply in_elt|]. rewrite <- Ej in Hh'. destruct rl as [|[c|] [|]]; auto.
  Qed.
  (** in particular for every matrix with at least two columns, and then the dataset is the same as well *)
  Theorem C11_two_columns (m : matrix C) w {W} `{Eqb W} {F : Num} {FOK : NumOK F} (label : C -> W) : m <> [] -> 2 <= w -> columns m w ->
    exists d : dataset nat nat W F, matrix_dataset label false None m = Ok d /\ matrix_from_csv label parse (to_csv m) = Ok (m, d).
  Proof.
    intros NE Hw Hm. assert (E : csv (to_csv m) = Ok m) by (apply (keeps_round_trip m w); auto; [lia|now left]).
    pose proof (C10_from_csv (F:=F) parse label (to_csv m)) as Q. rewrite E in Q. destruct Q as (d & Q1 & Q2). eauto.
  Qed.
End RoundTrip.

(** * Non-vacuity: natural numbers printed in unary *)
Module CsvExamples.
  Definition show1 (n : nat) : pystr := repeat 49%N (S n).
  Definition parse1 (s : pystr) : option (option nat) := match s with [] => None | _ :: t => if forallb (beq 49%N) s then Some (Some (length t)) else None end.
  Example unary_ok : prints_numbers parse1 show1.
  Proof.
    intros n. split; [|split].
    - unfold show1, parse1. cbn [repeat]. assert (E : forallb (beq 49%N) (49%N :: repeat 49%N n) = true).
      { apply forallb_forall. intros c [<-|Hc]; [reflexivity|]. apply repeat_spec in Hc. now subst. }
      rewrite E, repeat_length. reflexivity.
    - discriminate.
    - intros ch Hc. apply repeat_spec in Hc. subst. split; [reflexivity|discriminate].
  Qed.
  Definition m2 : matrix nat := [[None; None]; [Some 1; None]; [Some 0; Some 3]].
  Example two_columns : csv_to_masked_array parse1 (to_csv show1 m2) = Ok m2.
  Proof. vm_compute. reflexivity. Qed.
  (** a single column with a masked first row is not read back *)
  Example lossy : csv_to_masked_array parse1 (to_csv show1 [[None]; [Some 1]]) = Ok [[Some 1]].
  Proof. vm_compute. reflexivity. Qed.
  (** "1, 11 \n,\n" : blanks around cells are ignored *)
  Example accepted : csv_to_masked_array parse1 [49; 44; 32; 49; 49; 32; 10; 44; 10]%N = Ok [[Some 0; Some 1]; [None; None]].
  Proof. vm_compute. reflexivity. Qed.
  (** "1\n1,1" : second row has two entries instead of one;  "x" : not a number *)
  Example refused : csv_to_masked_array parse1 [49; 10; 49; 44; 49]%N = Err (Ragged 1 2 2) /\ csv_to_masked_array parse1 [120]%N = Err (BadFloat [120%N]).
  Proof. split; vm_compute; reflexivity. Qed.
End CsvExamples.
