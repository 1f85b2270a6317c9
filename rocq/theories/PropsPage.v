(** * C88, C89: what the page asks the server, and how it compares with previous results *)
From Coq Require Import NArith String Lia.
From Verif Require Import Base Num Spec Dataset DatasetRep Iterators Algorithms Results PyStr Regex Matrix PropsMatrix Supervised Client PropsClient Graph
  Driver Rounds PropsIter PropsRun PropsExperiment PropsOrd Front FrontRep PropsCli PropsWeb PropsSafe WebForm PropsForm WebPage.

(** ** Numerals *)
Lemma digits_spec fuel : forall n, (n < 10 ^ N.of_nat fuel)%N ->
  exists ds, digits fuel n = map (fun d => 48 + d)%N ds /\ (forall d, In d ds -> (d < 10)%N) /\ fold_left (fun a d => 10 * a + d)%N ds 0%N = n.
Proof.
  induction fuel as [|k IH]; intros n H; [cbn in H; exists []; cbn; repeat split; [intros ? []|lia]|]. cbn [digits].
  assert (M : (n mod 10 < 10)%N) by (apply N.mod_lt; discriminate). destruct (N.ltb_spec n 10) as [L|L].
  - exists [(n mod 10)%N]. split; [reflexivity|]. split; [intros d [<-|[]]; exact M|]. cbn [fold_left]. rewrite N.mod_small by exact L. lia.
  - destruct (IH (n / 10)%N) as (ds & E & Hd & Hf).
    { rewrite Nat2N.inj_succ, N.pow_succ_r' in H. apply N.div_lt_upper_bound; [discriminate|exact H]. }
    exists (ds ++ [(n mod 10)%N]). rewrite E, map_app. split; [reflexivity|]. split; [intros d Hin; apply in_app_or in Hin; destruct Hin as [Hin|[<-|[]]]; auto|].
    rewrite fold_left_app. cbn [fold_left]. rewrite Hf. rewrite (N.div_mod n 10) at 3 by discriminate. lia.
Qed.
Lemma size_nat_pow n : (n < 2 ^ N.of_nat (N.size_nat n))%N.
Proof.
  destruct n as [|p]; [reflexivity|]. cbn [N.size_nat]. induction p as [p IH|p IH|]; [| |reflexivity]; cbn [Pos.size_nat]; rewrite Nat2N.inj_succ, N.pow_succ_r'; lia.
Qed.
Lemma int_string_numeral decimal n : decimal_ok decimal -> numeral decimal (int_string n) (Z.of_N n).
Proof.
  intros D. assert (B : (n < 10 ^ N.of_nat (S (N.size_nat n)))%N).
  { apply N.lt_le_trans with (2 ^ N.of_nat (N.size_nat n))%N; [apply size_nat_pow|]. apply N.le_trans with (10 ^ N.of_nat (N.size_nat n))%N; [apply N.pow_le_mono_l; lia|apply N.pow_le_mono_r; lia]. }
  destruct (digits_spec _ n B) as (ds & E & Hd & Hf). split; [unfold int_string; cbn [digits]; intros Q; apply app_eq_nil in Q; destruct Q; discriminate|].
  exists ds. split.
  - unfold int_string. rewrite E, map_map. apply map_ext_in. intros d Hin. specialize (Hd d Hin). rewrite D by lia. assert (Q : ((48 <=? 48 + d) && (48 + d <=? 57))%N = true) by (apply Bool.andb_true_iff; split; apply N.leb_le; lia). rewrite Q. f_equal. lia.
  - rewrite <- Hf. clear. change 0%Z with (Z.of_N 0%N). generalize 0%N. induction ds as [|d ds IH]; intros a; [reflexivity|]. cbn [map fold_left]. rewrite IH. f_equal. lia.
Qed.
Lemma int_string_chars n c : In c (int_string n) -> is_space c = false /\ (48 <= c <= 57)%N.
Proof.
  assert (G : forall fuel n, In c (digits fuel n) -> (48 <= c <= 57)%N).
  { induction fuel as [|k IH]; intros m H; [destruct H|]. cbn [digits] in H. apply in_app_or in H. destruct H as [H|[<-|[]]]; [destruct (m <? 10)%N; [destruct H|exact (IH _ H)]|]. assert (M : (m mod 10 < 10)%N) by (apply N.mod_lt; discriminate). revert M. generalize (m mod 10)%N. intros z M. lia. }
  intros H. specialize (G _ _ H). split; [|exact G]. assert (K : (c = 48 \/ c = 49 \/ c = 50 \/ c = 51 \/ c = 52 \/ c = 53 \/ c = 54 \/ c = 55 \/ c = 56 \/ c = 57)%N) by lia.
  repeat destruct K as [->|K]; try reflexivity. subst c. reflexivity.
Qed.

(** ** C88 *)
Section Request.
  Context {F : Num}.
  Variable pfloat : pystr -> option F.
  Variable decimal : pychar -> option N.
  Hypothesis DEC : decimal_ok decimal.
  Variable toFixed10 : F -> pystr.
  Variable stringify : jval (F:=F) -> pystr.
  Notation accepted := (fun s it => algorithm_parameter pfloat decimal s = Ok it).

  (** the text of a threshold that is not negative: not blank, no "-", no white space *)
  Definition plain_text (s : pystr) : Prop := s <> [] /\ ~ In dash s /\ forall c, In c s -> is_space c = false.
  (** the iterator that the settings of the form stand for: n rounds; or until the distance is below the threshold (the number that
      Python reads in what toFixed(10) wrote), within 100 rounds *)
  Inductive chosen (it : iteration F) : iterator F -> Prop :=
  | chosen_fixed n : it_type it = lit_str "fixed" -> it_limit it = Some n -> (n <= 100)%N -> chosen it (IFixed (Z.of_N n) 0)
  | chosen_convergence m x y : it_type it = lit_str "convergence" -> measure_name m = Some (it_measure it) -> it_threshold it = Some x ->
      plain_text (toFixed10 x) -> pfloat (toFixed10 x) = Some y -> chosen it (IConv m y 100 0 None).

  Lemma lit_no_space s : forallb (fun c => negb (is_space c)) (lit_str s) = true -> forall c, In c (lit_str s) -> is_space c = false.
  Proof. intros H c Hc. rewrite forallb_forall in H. specialize (H c Hc). now apply Bool.negb_true_iff in H. Qed.
  Lemma no_space_strip s : (forall c, In c s -> is_space c = false) -> strip s = s.
  Proof. intros H. apply strip_id. split; [destruct s; [exact I|apply H; now left]|]. destruct (rev s) as [|c t] eqn:E; [exact I|]. apply H. apply in_rev. rewrite E. now left. Qed.
  Lemma measure_chars m name c : measure_name m = Some name -> In c name -> is_space c = false /\ c <> dash.
  Proof. intros E Hc. destruct m; cbn in E; try discriminate; injection E as <-; cbn in Hc; repeat destruct Hc as [<-|Hc]; try destruct Hc; split; try reflexivity; discriminate. Qed.
  Lemma iterator_line v it : (forall c, In c v -> is_space c = false) -> iterator_spec pfloat decimal 200 v it -> accepted (lit_str "iterator=" ++ v) (lit_str "iterator", PIterator it).
  Proof.
    intros H Sp. unfold algorithm_parameter. assert (E : split_once equals_sign (lit_str "iterator=" ++ v) = Some (lit_str "iterator", v)) by reflexivity. rewrite E.
    assert (E1 : strip (lit_str "iterator") = lit_str "iterator") by reflexivity. rewrite E1, (no_space_strip v H), beq_refl. apply (C43_accepts_iff pfloat decimal DEC) in Sp. now rewrite Sp.
  Qed.
  Lemma hundred : numeral decimal (lit_str "100") 100%Z.
  Proof. exact (int_string_numeral decimal 100 DEC). Qed.
  Lemma iteration_line it iter : chosen it iter -> exists line, get_iteration_string toFixed10 it = Some line /\ accepted line (lit_str "iterator", PIterator iter) /\ ~ In newline line.
  Proof.
    intros [n Et El Hn|m x y Et Em Ex (P1 & P2 & P3) Ey]; unfold get_iteration_string; rewrite Et.
    - rewrite beq_refl, El. cbn [option_map]. eexists. split; [reflexivity|].
      assert (K : forall c, In c (lit_str "fixed-" ++ int_string n) -> is_space c = false) by (intros c Hc; apply in_app_or in Hc; destruct Hc as [Hc|Hc]; [now apply (lit_no_space "fixed-")|now apply int_string_chars in Hc]).
      split.
      + apply iterator_line; [exact K|]. rewrite <- (app_nil_r (int_string n)). apply SpecFixed; [now apply int_string_numeral|lia|now left].
      + intros Hc. apply in_app_or in Hc. destruct Hc as [Hc|Hc]; [vm_compute in Hc; repeat destruct Hc as [Hc|Hc]; try discriminate; destruct Hc|]. specialize (K _ Hc). discriminate.
    - rewrite beq_neq by discriminate. rewrite beq_refl, Ex. cbn [option_map]. eexists. split; [reflexivity|].
      assert (K : forall c, In c (it_measure it ++ lit_str "-convergence-" ++ toFixed10 x ++ lit_str "-limit-100") -> is_space c = false).
      { intros c Hc. repeat (apply in_app_or in Hc; destruct Hc as [Hc|Hc]); [now apply (measure_chars m (it_measure it))|now apply (lit_no_space "-convergence-")|now apply P3|now apply (lit_no_space "-limit-100")]. }
      split.
      + apply iterator_line; [exact K|]. change (lit_str "-limit-100") with (lit_str "-limit-" ++ lit_str "100" ++ []). apply SpecConvLimit; auto; [exact hundred|lia|now left].
      + intros Hc. apply in_app_or in Hc. destruct Hc as [Hc|Hc]; [vm_compute in Hc; repeat destruct Hc as [Hc|Hc]; try discriminate; destruct Hc|]. specialize (K _ Hc). discriminate.
  Qed.

  (** the labels of a selection *)
  Definition labels_of (a : selected) : list pystr := match a with SUndefined => [] | SString s => [s] | SArray l => l end.
  Definition lines_of (text : pystr) (lines : list pystr) : Prop :=
    text = [] /\ lines = [] \/ text <> [] /\ lines <> [] /\ join [newline] lines = text /\ forall line, In line lines -> ~ In newline line.

  (** Pressing Run with valid settings sends the labels, the table and, as parameters, the user's own lines followed by one for the iterator; the
      parameters that the server gets are the user's, but the iterator is the one chosen in the form *)
  Theorem C88_request previous (p : press F) iter lines items : pr_algorithm p <> SString (lit_str "voting") -> chosen (pr_iteration p) iter ->
    lines_of (pr_params p) lines -> Forall2 accepted lines items ->
    exists q line, make_request toFixed10 stringify previous p = Some q /\ q_algorithm q = labels_of (pr_algorithm p) /\ q_matrix q = Some (pr_matrix p) /\
      q_previous q = (if pr_compare p then option_map (fun o => stringify (JvObj o)) previous else None) /\
      parameter_lines q (lines ++ [line]) /\ Forall2 accepted (lines ++ [line]) (items ++ [(lit_str "iterator", PIterator iter)]) /\
      forall k, dget (dict_of (items ++ [(lit_str "iterator", PIterator iter)])) k = if beq k (lit_str "iterator") then Some (PIterator iter) else dget (dict_of items) k.
  Proof.
    intros NV Ch HL HI. destruct (iteration_line _ _ Ch) as (line & El & Acc & Nl). unfold make_request.
    assert (Ev : not_voting (pr_algorithm p) = true) by (destruct (pr_algorithm p) as [|s|l]; cbn [not_voting]; try reflexivity; rewrite beq_neq; [reflexivity|intros ->; now apply NV]).
    rewrite Ev, El. cbn [option_map]. set (text := (match pr_params p with [] => [] | _ => _ end) ++ line).
    assert (Et : text = join [newline] (lines ++ [line])).
    { unfold text. destruct HL as [[E1 ->]|(N1 & N2 & E1 & _)]; [rewrite E1; reflexivity|]. rewrite join_snoc by exact N2. rewrite E1. destruct (pr_params p); [congruence|]. now rewrite <- app_assoc. }
    assert (Nt : text <> []).
    { unfold text. intros Q. apply app_eq_nil in Q. destruct Q as [_ ->]. unfold get_iteration_string in El. destruct (if beq (it_type (pr_iteration p)) (lit_str "fixed") then _ else _); discriminate. }
    eexists _, line. split; [reflexivity|]. cbn [q_algorithm q_matrix q_previous]. split; [reflexivity|]. split; [reflexivity|]. split; [destruct (pr_compare p), previous; reflexivity|]. split; [|split].
    - unfold parameter_lines. cbn [q_parameters]. destruct text as [|c t] eqn:Ec; [congruence|]. split; [now destruct lines|]. split; [now rewrite Et|]. intros l Hl. apply in_app_or in Hl. destruct Hl as [Hl|[<-|[]]]; [|exact Nl].
      destruct HL as [[_ ->]|(_ & _ & _ & K)]; [destruct Hl|now apply K].
    - apply Forall2_app; [exact HI|]. constructor; [exact Acc|constructor].
    - intros k. unfold dict_of. rewrite fold_left_app. cbn [fold_left]. apply dget_dset.
  Qed.
  (** nothing is sent, because of an exception in the page, exactly if the field for the chosen kind of iteration is not filled in properly *)
  Theorem C88_not_sent previous (p : press F) : pr_algorithm p <> SString (lit_str "voting") -> it_type (pr_iteration p) = lit_str "fixed" \/ it_type (pr_iteration p) = lit_str "convergence" ->
    (make_request toFixed10 stringify previous p = None <-> it_type (pr_iteration p) = lit_str "fixed" /\ it_limit (pr_iteration p) = None \/ it_type (pr_iteration p) = lit_str "convergence" /\ it_threshold (pr_iteration p) = None).
  Proof.
    intros NV HT. unfold make_request.
    assert (Ev : not_voting (pr_algorithm p) = true) by (destruct (pr_algorithm p) as [|s|l]; cbn [not_voting]; try reflexivity; rewrite beq_neq; [reflexivity|intros ->; now apply NV]).
    rewrite Ev. unfold get_iteration_string. destruct HT as [HT|HT]; rewrite HT.
    - rewrite beq_refl. destruct (it_limit (pr_iteration p)); cbn [option_map]; split; try discriminate; try (intros [[_ H]|[H _]]; discriminate); auto.
    - rewrite beq_neq by discriminate. rewrite beq_refl. destruct (it_threshold (pr_iteration p)); cbn [option_map]; split; try discriminate; try (intros [[H _]|[_ H]]; discriminate); auto.
  Qed.
  (** a negative threshold is sent, but the server does not take it *)
  Theorem C88_negative_threshold (it : iteration F) x m s : it_type it = lit_str "convergence" -> measure_name m = Some (it_measure it) -> it_threshold it = Some x -> toFixed10 x = dash :: s ->
    exists line e, get_iteration_string toFixed10 it = Some line /\ algorithm_parameter pfloat decimal line = Err e.
  Proof.
    intros Et Em Ex Es. unfold get_iteration_string. rewrite Et. rewrite beq_neq by discriminate. rewrite beq_refl, Ex. cbn [option_map]. rewrite Es. eexists _. set (v := it_measure it ++ lit_str "-convergence-" ++ (dash :: s) ++ lit_str "-limit-100").
    destruct (algorithm_parameter pfloat decimal (lit_str "iterator=" ++ v)) as [[k u]|e] eqn:E; [|exists e; split; [reflexivity|exact E]]. exfalso.
    unfold algorithm_parameter in E. assert (E0 : split_once equals_sign (lit_str "iterator=" ++ v) = Some (lit_str "iterator", v)) by reflexivity. rewrite E0 in E.
    assert (E1 : strip (lit_str "iterator") = lit_str "iterator") by reflexivity. rewrite E1, beq_refl in E. destruct (get_iterator pfloat decimal 200 (strip v)) as [it'|] eqn:Eg; [|discriminate]. clear E E0 E1.
    apply (C43_accepts_iff pfloat decimal DEC) in Eg.
    assert (Sv : exists b, v = strip v ++ b).
    { assert (H0 : match v with [] => True | c :: _ => is_space c = false end) by (unfold v; destruct (it_measure it) as [|c t] eqn:Emm; [destruct m; discriminate|]; cbn [app]; apply (measure_chars m (c :: t)); [exact Em|now left]).
      destruct (strip_decomp v) as (a & b & Ha & _ & Ev & _). destruct a as [|c a]; [exists b; exact Ev|]. exfalso. rewrite Ev in H0. cbn in H0. specialize (Ha c (or_introl eq_refl)). congruence. }
    destruct Sv as (b & Sv). assert (Hm : forall c, In c (it_measure it) -> c <> dash) by (intros c Hc; now apply (measure_chars m (it_measure it))).
    assert (Cut : forall (a1 a2 r1 r2 : pystr), ~ In dash a1 -> ~ In dash a2 -> a1 ++ dash :: r1 = a2 ++ dash :: r2 -> a1 = a2 /\ r1 = r2).
    { clear. induction a1 as [|c a1 IH]; intros [|c' a2] r1 r2 H1 H2 H; cbn [app] in H; [injection H as H; auto|injection H as Hc H; subst; exfalso; apply H2; now left|injection H as Hc H; subst; exfalso; apply H1; now left|injection H as Hc H].
      destruct (IH a2 r1 r2) as [-> ->]; [intros Q; apply H1; now right|intros Q; apply H2; now right|exact H|]. subst. auto. }
    set (rest := (dash :: s) ++ lit_str "-limit-100") in v. assert (Ev : v = it_measure it ++ dash :: (lit_str "convergence" ++ dash :: rest)) by reflexivity.
    assert (Hm' : ~ In dash (it_measure it)) by (intros Q; now apply (Hm dash)).
    assert (Nc : ~ In dash (lit_str "convergence")) by (intros Q; vm_compute in Q; repeat destruct Q as [Q|Q]; try discriminate; destruct Q).
    inversion Eg as [ds n tl Hn Hmax Htl Es1|m' name th y En Nth Nd Ep Es1|m' name th y ds n tl En Nth Nd Ep Hn Hmax Htl Es1]; rewrite <- Es1 in Sv; rewrite Ev in Sv.
    - assert (Sv2 : it_measure it ++ dash :: lit_str "convergence" ++ dash :: rest = lit_str "fixed" ++ dash :: (ds ++ tl) ++ b) by exact Sv.
      apply Cut in Sv2; [|exact Hm'|intros Q; vm_compute in Q; repeat destruct Q as [Q|Q]; try discriminate; destruct Q]. destruct Sv2 as [Sv2 _]. rewrite Sv2 in Em. destruct m; discriminate.
    - assert (Hn' : ~ In dash name) by (intros Q; now apply (measure_chars m' name dash En)).
      assert (Sv2 : it_measure it ++ dash :: lit_str "convergence" ++ dash :: rest = name ++ dash :: lit_str "convergence" ++ dash :: th ++ b) by (rewrite Sv, <- app_assoc; reflexivity).
      apply Cut in Sv2; [|exact Hm'|exact Hn']. destruct Sv2 as [_ Sv2]. apply Cut in Sv2; [|exact Nc|exact Nc]. destruct Sv2 as [_ Sv2]. destruct th as [|c th]; [congruence|]. cbn [app rest] in Sv2. injection Sv2 as Q _. apply Nd. left. now symmetry.
    - assert (Hn' : ~ In dash name) by (intros Q; now apply (measure_chars m' name dash En)).
      assert (Sv2 : it_measure it ++ dash :: lit_str "convergence" ++ dash :: rest = name ++ dash :: lit_str "convergence" ++ dash :: (th ++ lit_str "-limit-" ++ ds ++ tl) ++ b) by (rewrite Sv, <- app_assoc; reflexivity).
      apply Cut in Sv2; [|exact Hm'|exact Hn']. destruct Sv2 as [_ Sv2]. apply Cut in Sv2; [|exact Nc|exact Nc]. destruct Sv2 as [_ Sv2]. destruct th as [|c th]; [congruence|]. cbn [app rest] in Sv2. injection Sv2 as Q _. apply Nd. left. now symmetry.
  Qed.
End Request.

(** ** The page and the server together *)
Section Together.
  Context {C W : Type} {EW : Eqb W} {F : Num} {FOK : NumOK F}.
  Variable parse : pystr -> option (option C).
  Variable label : C -> W.
  Variable pfloat : pystr -> option F.
  Variable decimal : pychar -> option N.
  Hypothesis DEC : decimal_ok decimal.
  Variable ord : list pystr -> list pystr.
  Hypothesis Ord : forall l, Permutation.Permutation l (ord l).
  Variable ltw : W -> W -> bool.
  Variable rnd : nat -> nat.
  Hypothesis irrefl : forall x : F, n_ltb x x = false.
  Variable T : trig F.
  Variable show_nat : nat -> pystr.
  Variable show_w : W -> pystr.
  Variable loads : pystr -> option (jval (F:=F)).
  Variable oset : list pystr -> list pystr.
  Hypothesis Oset : forall l, Permutation.Permutation (oset l) l.
  Hypothesis show_nat_inj : forall a b, show_nat a = show_nat b -> a = b.
  Hypothesis show_w_inj : forall a b, show_w a = show_w b -> a = b.
  Variable toFixed10 : F -> pystr.
  Variable json_w : W -> jval (F:=F).
  Variable stringify : jval (F:=F) -> pystr.
  Variable first_key : list pystr -> option pystr.
  Hypothesis First : forall l, match first_key l with Some k => In k l | None => l = [] end.
  Variables (clocks : nat -> nat -> nat -> F) (fuel : nat).
  (** the server, answering the k-th request *)
  Notation web_run := (web_run parse label pfloat decimal ord ltw rnd T show_nat show_w loads oset).
  Notation response_spec := (response_spec ltw rnd T show_nat show_w loads).
  Notation entry_for := (entry_for ltw rnd T show_nat show_w loads).
  Notation entry := (web_entry (W:=W) (F:=F)).
  Notation press_run k := (press_run toFixed10 show_nat show_w json_w stringify first_key (web_run (clocks k) fuel)).
  Notation entry_json := (entry_json show_nat show_w json_w).
  Notation press := (press F).
  Notation outcome := (outcome W F).
  Notation service := (service W F).
  Notation accepted := (fun s it => algorithm_parameter pfloat decimal s = Ok it).

  Lemma answered_spec cl q data ms : web_run cl fuel q = R200 data ms ->
    exists lines items m (d : dataset nat nat W F), parameter_lines q lines /\ Forall2 accepted lines items /\ matrix_dataset label false None m = Ok d /\
      response_spec cl fuel (get_triples label m) d (dict_of items) (q_previous q) (q_algorithm q) (R200 data ms).
  Proof.
    intros E. destruct (C48_run parse label pfloat decimal DEC ord Ord ltw rnd irrefl T show_nat show_w loads oset Oset show_nat_inj show_w_inj cl fuel q) as [A1 A2]. rewrite E in A1, A2.
    assert (K : exists text, q_algorithm q <> [] /\ q_matrix q = Some text /\ text <> []).
    { destruct (q_algorithm q); [discriminate (A1 (or_introl eq_refl))|]. destruct (q_matrix q) as [[|c t]|]; [discriminate A1; auto| |discriminate A1; auto]. exists (c :: t). repeat split; discriminate. }
    destruct K as (text & K1 & K2 & K3). destruct (A2 text K1 K2 K3) as (lines & Hl & [(b & li & af & e & _ & _ & _ & Q)|(items & Hi & text' & Ht & Q)]); [discriminate|].
    destruct (csv_to_masked_array parse text') as [m|e]; [|discriminate]. destruct Q as (d & Ed & Q). exists lines, items, m, d. auto.
  Qed.

  Lemma same_lines q lines lines' : parameter_lines q lines -> parameter_lines q lines' -> lines = lines'.
  Proof.
    unfold parameter_lines. destruct (q_parameters q) as [s|]; [|congruence]. intros (N1 & J1 & I1) (N2 & J2 & I2). rewrite <- (split_join newline lines N1 I1), <- (split_join newline lines' N2 I2). now rewrite J1, J2.
  Qed.
  Lemma same_items lines : forall items items', Forall2 accepted lines items -> Forall2 accepted lines items' -> items = items'.
  Proof. induction lines as [|s l IH]; intros its its' H H'; inversion H; inversion H'; subst; [reflexivity|]. f_equal; [congruence|auto]. Qed.
  Lemma warning_for c0 name ps cs ws : warnings_for (F:=F) ps cs ws -> In c0 cs -> (forall names, unused c0 ps names -> In name names) -> exists names, In (warning c0 names) ws /\ In name names.
  Proof.
    intros H. induction H as [|c cs ws U H IH|c cs ws names U N H IH]; intros Hc HU; [destruct Hc| |].
    - destruct Hc as [->|Hc]; [destruct (HU [] U)|apply IH; assumption].
    - destruct Hc as [->|Hc]; [exists names; split; [now left|apply HU, U]|]. destruct (IH Hc HU) as (n & H1 & H2). exists n. split; [now right|exact H2].
  Qed.

  (** C88: with "voting" among the algorithms the answer always has a warning about the iterator, which the user did not ask for *)
  Theorem C88_voting_warns k sv (p : press) iter lines items q data ms sv' : pr_algorithm p <> SString (lit_str "voting") -> chosen pfloat toFixed10 (pr_iteration p) iter ->
    lines_of (pr_params p) lines -> Forall2 accepted lines items -> press_run k sv p = (Asked q (R200 data ms), sv') -> In (lit_str "voting") (labels_of (pr_algorithm p)) ->
    exists names, In (warning CMajorityVoting names) ms /\ In (lit_str "iterator") names.
  Proof.
    intros NV Ch HL HI E Hv. unfold WebPage.press_run in E. destruct (C88_request pfloat decimal DEC toFixed10 stringify (sv_previous sv) p iter lines items NV Ch HL HI) as (q0 & line & Eq & Ea & _ & _ & PL & FA & Dg).
    rewrite Eq in E. injection E as <- Er _. destruct (answered_spec _ _ _ _ Er) as (lines' & items' & m & d & PL' & FA' & Ed & Q).
    rewrite (same_lines _ _ _ PL' PL) in FA'. rewrite (same_items _ _ _ FA' FA) in Q. set (its := items ++ [(lit_str "iterator", PIterator iter)]) in *.
    destruct Q as (_ & _ & _ & _ & cs & Fc & Ww). rewrite Ea in Fc. destruct (Forall2_In_l _ _ _ _ Fc Hv) as (c & Hc & Tc).
    assert (c = CMajorityVoting) by (apply (proj1 (C47_labels _ _)) in Tc; vm_compute in Tc; congruence). subst c.
    apply (warning_for CMajorityVoting (lit_str "iterator") _ _ _ Ww Hc). intros names [_ H]. apply H. split; [rewrite Dg, beq_refl; discriminate|intros []].
  Qed.
  (** C88: with "usums" among the algorithms there is never an answer with results *)
  Theorem C88_usums_never k sv (p : press) iter lines items q data ms sv' : chosen pfloat toFixed10 (pr_iteration p) iter ->
    lines_of (pr_params p) lines -> Forall2 accepted lines items -> In (lit_str "usums") (labels_of (pr_algorithm p)) -> press_run k sv p <> (Asked q (R200 data ms), sv').
  Proof.
    intros Ch HL HI Hv E. unfold WebPage.press_run in E. assert (NV : pr_algorithm p <> SString (lit_str "voting")) by (intros Q; rewrite Q in Hv; destruct Hv as [Hv|[]]; discriminate).
    destruct (C88_request pfloat decimal DEC toFixed10 stringify (sv_previous sv) p iter lines items NV Ch HL HI) as (q0 & line & Eq & Ea & _ & _ & PL & FA & Dg).
    rewrite Eq in E. injection E as <- Er _. destruct (answered_spec _ _ _ _ Er) as (lines' & items' & m & d & PL' & FA' & Ed & Q).
    rewrite (same_lines _ _ _ PL' PL) in FA'. rewrite (same_items _ _ _ FA' FA) in Q. set (its := items ++ [(lit_str "iterator", PIterator iter)]) in *.
    destruct Q as (Q & _). rewrite <- Ea in Hv. apply In_nth_error in Hv. destruct Hv as [i Hi]. destruct (Q i _ Hi) as (e & c & r & Tc & (o & Ro & Er') & _).
    assert (c = CUnboundedSums) by (apply (proj1 (C47_labels _ _)) in Tc; vm_compute in Tc; congruence). subst c. cbn [requested] in Ro. injection Ro as <-.
    assert (Ei : iterator_given (dict_of its) (IOrd 20 0 0) = iter) by (unfold iterator_given; rewrite Dg, beq_refl; reflexivity). rewrite Ei in Er'. cbn [crun] in Er'.
    destruct (run (clocks k (2 * i)) fuel (AObj UnboundedSums (prior_given (dict_of its) COUNT) iter None) d) as [r' o'] eqn:R'. cbn [fst] in Er'. subst r'. change (build false None (get_triples label m) = Ok d) in Ed.
    apply (run_cases false None (get_triples label m) d Ed) in R'. destruct R' as (NE & x0 & j & it' & E0 & El & x & Ef & _).
    pose proof (it_loop_reset (Rounds.cmp1 UnboundedSums d x0) (Rounds.cmp2 UnboundedSums d x0) (Rounds.stops UnboundedSums d x0) fuel (reset iter) 0) as Q'. rewrite El in Q'. cbn [snd] in Q'.
    destruct Ch; destruct it'; cbn in Q', Ef; try discriminate.
  Qed.

  (** ** C89 *)
  (** [visit h sv]: since the page was opened the Run button has been pressed as recorded in h, with what came of it, and the service is now sv *)
  Inductive visit : list (press * outcome) -> service -> Prop :=
  | page_opened : visit [] new_service
  | run_pressed h sv p o sv' : visit h sv -> sv_state sv <> PLoading -> press_run (List.length h) sv p = (o, sv') -> visit (h ++ [(p, o)]) sv'.
  (** the last press that was answered with results *)
  Definition last_answered (h : list (press * outcome)) (p : press) (data : dict pystr entry) (ms : list pystr) : Prop :=
    exists h1 q h2, h = h1 ++ (p, Asked q (R200 data ms)) :: h2 /\ forall p' q' data' ms', ~ In (p', Asked q' (R200 data' ms')) h2.

  Lemma last_answered_snoc h p o p0 data ms : last_answered (h ++ [(p, o)]) p0 data ms <->
    (p0 = p /\ exists q, o = Asked q (R200 data ms)) \/ (last_answered h p0 data ms /\ forall q' data' ms', o <> Asked q' (R200 data' ms')).
  Proof.
    split.
    - intros (h1 & q & h2 & E & N). destruct h2 as [|x h2 _] using rev_ind.
      + apply app_inj_tail in E. destruct E as [_ E]. injection E as -> ->. left. eauto.
      + rewrite app_comm_cons, app_assoc in E. apply app_inj_tail in E. destruct E as [-> <-]. right. split.
        * exists h1, q, h2. split; [reflexivity|]. intros p' q' d' m' H. apply (N p' q' d' m'). apply in_or_app. now left.
        * intros q' d' m' ->. apply (N p q' d' m'). apply in_or_app. right. now left.
    - intros [[-> (q & ->)]|[(h1 & q & h2 & -> & N) Ho]]; [exists h, q, []; split; [reflexivity|intros p' q' d' m' []]|].
      exists h1, q, (h2 ++ [(p, o)]). split; [now rewrite <- app_assoc|]. intros p' q' d' m' H. apply in_app_or in H. destruct H as [H|[H|[]]]; [exact (N _ _ _ _ H)|]. injection H as _ H. exact (Ho _ _ _ H).
  Qed.
  Lemma visit_answer h sv p q r : visit h sv -> In (p, Asked q r) h -> exists k, r = web_run (clocks k) fuel q /\ q_algorithm q = labels_of (pr_algorithm p).
  Proof.
    intros V. induction V as [|h sv p0 o sv' V IH NL E]; intros H; [destruct H|]. apply in_app_or in H. destruct H as [H|[H|[]]]; [auto|]. injection H as -> ->. unfold WebPage.press_run in E.
    destruct (make_request toFixed10 stringify (sv_previous sv) p) as [q1|] eqn:Em; [|discriminate]. injection E as -> <- _. exists (List.length h). split; [reflexivity|].
    unfold make_request in Em. destruct (if not_voting _ then _ else _); [|discriminate]. injection Em as <-. reflexivity.
  Qed.
  (** What the page shows and keeps.  The results and warnings are those of the last press that was answered with results, whatever
      came of later ones, and one of its algorithms is the one shown.  Those results are kept for comparison if exactly one algorithm had
      been selected, as a list; otherwise none are. *)
  Theorem C89_kept h sv : visit h sv ->
    (forall p data ms, last_answered h p data ms -> sv_results sv = Some data /\ sv_messages sv = ms /\ (exists l, sv_shown sv = Some l /\ In l (labels_of (pr_algorithm p))) /\
       match pr_algorithm p with SArray [l] => exists e, dget data l = Some e /\ sv_previous sv = Some (entry_json e) | _ => sv_previous sv = None end) /\
    ((forall p data ms, ~ last_answered h p data ms) -> sv_results sv = None /\ sv_previous sv = None).
  Proof.
    intros V. pose proof V as V0. induction V as [|h sv p o sv' V IH NL E].
    - split; [|split; reflexivity]. intros p data ms (h1 & q & h2 & E & _). destruct h1; discriminate.
    - specialize (IH V). destruct IH as [I1 I2]. unfold WebPage.press_run in E.
      assert (Keep : sv_results sv' = sv_results sv -> sv_messages sv' = sv_messages sv -> sv_shown sv' = sv_shown sv -> sv_previous sv' = sv_previous sv -> (forall q' data' ms', o <> Asked q' (R200 data' ms')) ->
        (forall p1 data ms, last_answered (h ++ [(p, o)]) p1 data ms -> sv_results sv' = Some data /\ sv_messages sv' = ms /\ (exists l, sv_shown sv' = Some l /\ In l (labels_of (pr_algorithm p1))) /\
           match pr_algorithm p1 with SArray [l] => exists e, dget data l = Some e /\ sv_previous sv' = Some (entry_json e) | _ => sv_previous sv' = None end) /\
        ((forall p1 data ms, ~ last_answered (h ++ [(p, o)]) p1 data ms) -> sv_results sv' = None /\ sv_previous sv' = None)).
      { intros -> -> -> -> No. split.
        - intros p1 data ms H. apply last_answered_snoc in H. destruct H as [[_ (q & ->)]|[H _]]; [destruct (No _ _ _ eq_refl)|now apply I1].
        - intros H. apply I2. intros p1 data ms H'. apply (H p1 data ms). apply last_answered_snoc. right. auto. }
      destruct (make_request toFixed10 stringify (sv_previous sv) p) as [q|] eqn:Em; [|injection E as <- <-; apply Keep; auto; discriminate].
      injection E as <- <-. set (r := web_run (clocks (List.length h)) fuel q) in *. destruct r as [data ms|e| |e|] eqn:Er; try (apply Keep; try reflexivity; discriminate). clear Keep.
      assert (A : web_run (clocks (List.length h)) fuel q = R200 data ms) by exact Er. destruct (answered_spec _ _ _ _ A) as (lines & items & m & d & _ & _ & _ & (_ & _ & Kd & _)).
      assert (Eq : q_algorithm q = labels_of (pr_algorithm p)) by (unfold make_request in Em; destruct (if not_voting _ then _ else _); [|discriminate]; injection Em as <-; reflexivity). rewrite Eq in Kd.
      cbn [handle_response sv_results sv_messages sv_shown sv_previous]. split; [|intros H; exfalso; apply (H p data ms); apply last_answered_snoc; left; eauto].
      intros p1 data1 ms1 H. apply last_answered_snoc in H. destruct H as [[-> (q1 & H)]|[_ H]]; [|destruct (H _ _ _ eq_refl)]. injection H as <- <- <-. split; [reflexivity|]. split; [reflexivity|].
      assert (Fk : exists l, first_key (dkeys data) = Some l /\ In l (labels_of (pr_algorithm p))).
      { pose proof (First (dkeys data)) as Q. destruct (first_key (dkeys data)) as [l|]; [exists l; split; [reflexivity|now apply Kd]|]. exfalso. assert (Nl : labels_of (pr_algorithm p) <> []).
        { rewrite <- Eq. intros Q0. clear -A Q0. unfold Front.web_run in A. rewrite Q0 in A. discriminate. }
        destruct (labels_of (pr_algorithm p)) as [|l0 ls]; [congruence|]. assert (In l0 (dkeys data)) by (apply Kd; now left). rewrite Q in *. contradiction. }
      split.
      + destruct (sv_shown sv) as [l|]; [|exact Fk]. destruct (dmem data l) eqn:Dm; [|exact Fk]. exists l. split; [reflexivity|]. apply Kd. unfold dmem in Dm. now apply mem_In in Dm.
      + destruct (pr_algorithm p) as [|s|[|l [|]]]; try reflexivity. cbn [labels_of] in Kd. assert (In l (dkeys data)) by (apply Kd; now left). destruct (dget data l) as [e|] eqn:De; [exists e; split; reflexivity|]. apply dget_None in De. contradiction.
  Qed.

  (** what Python reads in a text that JavaScript wrote: the same JSON value, but the keys of objects may be in another order *)
  Inductive same_json : jval (F:=F) -> jval (F:=F) -> Prop :=
  | same_value j : same_json j j
  | same_object o o' : (forall k a, dget o k = Some a -> exists b, dget o' k = Some b /\ same_json a b) -> (forall k, dget o k = None -> dget o' k = None) -> same_json (JvObj o) (JvObj o').
  Definition reads_back (e : entry) : Prop := exists j, loads (stringify (JvObj (entry_json e))) = Some j /\ same_json (JvObj (entry_json e)) j.
  (** the scores in an entry of the answer *)
  Definition entry_trust (e : entry) (s : nat) : option F := match dget (we_fields e) FTrust with Some (VTrust t) => dget t s | _ => None end.
  Definition entry_belief (e : entry) (x : nat) (w : W) : option F :=
    match dget (we_fields e) FBelief with Some (VBelief b) => match dget b x with Some m => dget m w | None => None end | _ => None end.

  Lemma field_name_inj f g : field_name f = field_name g -> f = g.
  Proof. destruct f, g; intros H; try reflexivity; discriminate. Qed.
  Lemma dget_mapped {K X Y} `{Eqb K} (sh : K -> pystr) (g : X -> Y) (l : list (K * X)) k : (forall a b, sh a = sh b -> a = b) -> dget (map (fun p => (sh (fst p), g (snd p))) l) (sh k) = option_map g (dget l k).
  Proof.
    intros Inj. induction l as [|[a x] l IH]; [reflexivity|]. cbn [map fst snd]. rewrite !PropsExperiment.dget_cons. destruct (beq_spec k a) as [->|N]; [now rewrite beq_refl|]. rewrite (beq_neq (sh k) (sh a)) by (intros Q; apply N; now apply Inj). exact IH.
  Qed.
  Lemma dget_mapped_inv {K X Y} `{Eqb K} (sh : K -> pystr) (g : X -> Y) (l : list (K * X)) n y : (forall a b, sh a = sh b -> a = b) -> dget (map (fun p => (sh (fst p), g (snd p))) l) n = Some y -> exists k x, n = sh k /\ dget l k = Some x /\ y = g x.
  Proof.
    intros Inj H0. pose proof (dget_In _ _ _ H0) as H1. apply in_map_iff in H1. destruct H1 as ([k x] & E & _). cbn in E. injection E as <- _. rewrite (dget_mapped sh g l k Inj) in H0. destruct (dget l k) as [x'|] eqn:D; [|discriminate]. cbn in H0. injection H0 as <-. exists k, x'. auto.
  Qed.
  Lemma entry_json_get e f v : dget (we_fields e) f = Some v -> dget (entry_json e) (field_name f) = Some (json_value show_nat show_w json_w v).
  Proof.
    intros H. unfold WebPage.entry_json. assert (G : forall (l l' : list (pystr * jval (F:=F))) k x, dget l k = Some x -> dget (l ++ l') k = Some x).
    { clear. induction l as [|[a y] l IH]; intros l' k x H; [discriminate|]. cbn [app]. rewrite PropsExperiment.dget_cons in *. destruct (beq k a); [exact H|now apply IH]. }
    apply G. rewrite (dget_mapped field_name (json_value show_nat show_w json_w) (we_fields e) f field_name_inj), H. reflexivity.
  Qed.
  Lemma entry_fields cl (d : dataset nat nat W F) ps prev i l e : entry_for cl fuel d ps prev i l e ->
    exists r, dget (we_fields e) FTrust = Some (VTrust (r_trust r)) /\ dget (we_fields e) FBelief = Some (VBelief (r_belief r)) /\ dget (we_fields e) FTime = Some (VTime (r_time r)) /\
      dget (we_fields e) FIterations = Some (VIterations (r_iterations r)) /\
      match prev, we_diff e with
      | None, None => True
      | Some s, Some df => exists obj t b u it, loads s = Some (JvObj obj) /\ has_fields obj t b u it /\ differences show_nat show_w t b u it r df
      | _, _ => False
      end.
  Proof.
    intros (c & r & _ & _ & Hf & _ & _ & Hd). exists r. assert (G : forall f, f <> FAccuracy -> exists v, dget (we_fields e) f = Some v /\ field_value ltw rnd None r f v).
    { intros f Nf. specialize (Hf f). destruct (dget (we_fields e) f) as [v|]; [eauto|contradiction]. }
    destruct (G FTrust ltac:(discriminate)) as (v1 & -> & E1). destruct (G FBelief ltac:(discriminate)) as (v2 & -> & E2). destruct (G FTime ltac:(discriminate)) as (v3 & -> & E3). destruct (G FIterations ltac:(discriminate)) as (v4 & -> & E4).
    cbn [field_value] in E1, E2, E3, E4. subst. repeat split; try reflexivity. exact Hd.
  Qed.
  (** the four fields of what the server reads, when it is sent the results kept *)
  Lemma read_fields e r obj t b u it : reads_back e -> loads (stringify (JvObj (entry_json e))) = Some (JvObj obj) -> has_fields obj t b u it ->
    dget (we_fields e) FTrust = Some (VTrust (r_trust r)) -> dget (we_fields e) FBelief = Some (VBelief (r_belief r)) -> dget (we_fields e) FTime = Some (VTime (r_time r)) -> dget (we_fields e) FIterations = Some (VIterations (r_iterations r)) ->
    u = JvNum (r_time r) /\ it = match r_iterations r with Some n => JvNum (n_ofZ (Z.of_nat n)) | None => JvNull end /\
    (exists to, t = JvObj to /\ (forall s x, dget (r_trust r) s = Some x -> dget to (show_nat s) = Some (JvNum x)) /\ (forall k j, dget to k = Some j -> exists s x, k = show_nat s /\ dget (r_trust r) s = Some x /\ j = JvNum x)) /\
    (exists bo, b = JvObj bo /\ (forall k j, dget bo k = Some j -> exists x m mo, k = show_nat x /\ dget (r_belief r) x = Some m /\ j = JvObj mo /\
        (forall k' j', dget mo k' = Some j' -> exists w y, k' = show_w w /\ dget m w = Some y /\ j' = JvNum y)) /\
      (forall x w m y, dget (r_belief r) x = Some m -> dget m w = Some y -> exists mo, dget bo (show_nat x) = Some (JvObj mo) /\ dget mo (show_w w) = Some (JvNum y))).
  Proof.
    intros (j & Lj & Sj) Lo (H1 & H2 & H3 & H4) F1 F2 F3 F4. rewrite Lo in Lj. injection Lj as <-. apply entry_json_get in F1, F2, F3, F4. cbn [json_value] in F1, F2, F3, F4.
    assert (G : forall f a c, dget (entry_json e) (field_name f) = Some a -> dget obj (field_name f) = Some c -> same_json a c).
    { intros f a c Ha Hc. inversion Sj as [?|o o' S1 S2]; subst; [rewrite Ha in Hc; injection Hc as ->; apply same_value|]. destruct (S1 _ _ Ha) as (c' & Hc' & Sc). rewrite Hc in Hc'. injection Hc' as <-. exact Sc. }
    pose proof (G FTrust _ _ F1 H1) as G1. pose proof (G FBelief _ _ F2 H2) as G2. pose proof (G FTime _ _ F3 H3) as G3. pose proof (G FIterations _ _ F4 H4) as G4. clear G.
    split; [now inversion G3|]. split; [destruct (r_iterations r); now inversion G4|]. split.
    - assert (K : exists to, t = JvObj to /\ (forall k a, dget (map (fun p : nat * F => (show_nat (fst p), JvNum (snd p))) (r_trust r)) k = Some a -> dget to k = Some a) /\ (forall k, dget (map (fun p : nat * F => (show_nat (fst p), JvNum (snd p))) (r_trust r)) k = None -> dget to k = None)).
      { inversion G1 as [?|o o' S1 S2]; subst; [eexists; split; [reflexivity|auto]|]. exists o'. split; [reflexivity|]. split; [|exact S2]. intros k a Ha. destruct (S1 k a Ha) as (a' & Ha' & Sa). rewrite Ha'. destruct (dget_mapped_inv show_nat JvNum (r_trust r) k a show_nat_inj Ha) as (s & x & -> & _ & ->). now inversion Sa. }
      destruct K as (to & -> & K1 & K2). exists to. split; [reflexivity|]. split.
      + intros s x Hx. apply K1. rewrite (dget_mapped show_nat JvNum (r_trust r) s show_nat_inj), Hx. reflexivity.
      + intros k j Hj. destruct (dget (map (fun p : nat * F => (show_nat (fst p), JvNum (snd p))) (r_trust r)) k) as [a|] eqn:Ea; [|rewrite (K2 _ Ea) in Hj; discriminate]. rewrite (K1 _ _ Ea) in Hj. injection Hj as <-. exact (dget_mapped_inv show_nat JvNum (r_trust r) k a show_nat_inj Ea).
    - set (inner := fun m : dict W F => JvObj (map (fun q : W * F => (show_w (fst q), JvNum (snd q))) m)) in *. set (full := map (fun p : nat * dict W F => (show_nat (fst p), inner (snd p))) (r_belief r)).
      assert (K : exists bo, b = JvObj bo /\ (forall k a, dget full k = Some a -> exists a', dget bo k = Some a' /\ same_json a a') /\ (forall k, dget full k = None -> dget bo k = None)).
      { inversion G2 as [?|o o' S1 S2]; subst; [eexists; split; [reflexivity|]; split; [intros k a Ha; exists a; split; [exact Ha|apply same_value]|auto]|]. exists o'. auto. }
      destruct K as (bo & -> & K1 & K2). exists bo. split; [reflexivity|].
      assert (In1 : forall m a', same_json (inner m) a' -> exists mo, a' = JvObj mo /\ (forall k' j', dget mo k' = Some j' -> exists w y, k' = show_w w /\ dget m w = Some y /\ j' = JvNum y) /\ (forall w y, dget m w = Some y -> dget mo (show_w w) = Some (JvNum y))).
      { intros m a' Sa. assert (Q : exists mo, a' = JvObj mo /\ (forall k a, dget (map (fun q : W * F => (show_w (fst q), JvNum (snd q))) m) k = Some a -> dget mo k = Some a) /\ (forall k, dget (map (fun q : W * F => (show_w (fst q), JvNum (snd q))) m) k = None -> dget mo k = None)).
        { inversion Sa as [?|o o' S1 S2]; subst; [eexists; split; [reflexivity|auto]|]. exists o'. split; [reflexivity|]. split; [|exact S2]. intros k a Ha. destruct (S1 k a Ha) as (a' & Ha' & Saa). rewrite Ha'. destruct (dget_mapped_inv show_w JvNum m k a show_w_inj Ha) as (s & x & -> & _ & ->). now inversion Saa. }
        destruct Q as (mo & -> & Q1 & Q2). exists mo. split; [reflexivity|]. split.
        - intros k' j' Hj. destruct (dget (map (fun q : W * F => (show_w (fst q), JvNum (snd q))) m) k') as [a|] eqn:Ea; [|rewrite (Q2 _ Ea) in Hj; discriminate]. rewrite (Q1 _ _ Ea) in Hj. injection Hj as <-. exact (dget_mapped_inv show_w JvNum m k' a show_w_inj Ea).
        - intros w y Hy. apply Q1. rewrite (dget_mapped show_w JvNum m w show_w_inj), Hy. reflexivity. }
      split.
      + intros k j Hj. destruct (dget full k) as [a|] eqn:Ea; [|rewrite (K2 _ Ea) in Hj; discriminate]. destruct (K1 _ _ Ea) as (a' & Ha' & Sa). rewrite Hj in Ha'. injection Ha' as <-.
        destruct (dget_mapped_inv show_nat inner (r_belief r) k a show_nat_inj Ea) as (x & m & -> & Hm & ->). destruct (In1 m j Sa) as (mo & -> & I1 & _). exists x, m, mo. auto.
      + intros x w m y Hm Hy. assert (Ea : dget full (show_nat x) = Some (inner m)) by (unfold full; rewrite (dget_mapped show_nat inner (r_belief r) x show_nat_inj), Hm; reflexivity).
        destruct (K1 _ _ Ea) as (a' & Ha' & Sa). destruct (In1 m a' Sa) as (mo & -> & _ & I2). exists mo. split; [exact Ha'|]. now apply I2.
  Qed.
  (** What the page says after a press: nothing if there are results or none have come yet, the server's error if it refused or failed,
      that something went wrong if the answer was not JSON; only in the first case do the results shown change.  If the settings do not
      make a request at all, nothing changes. *)
  Theorem C89_shown k sv (p : press) o sv' : press_run k sv p = (o, sv') ->
    match o with
    | Threw => sv' = sv
    | Asked q r =>
        match r with
        | R200 data ms => sv_state sv' = PHasResults /\ sv_error sv' = None /\ sv_results sv' = Some data /\ sv_messages sv' = ms /\
            (forall l, sv_shown sv = Some l -> In l (dkeys data) -> sv_shown sv' = Some l) /\
            ((forall l, sv_shown sv = Some l -> ~ In l (dkeys data)) -> sv_shown sv' = first_key (dkeys data))
        | NoResponse => sv_state sv' = PLoading /\ sv_error sv' = None
        | R400 _ | R500 => sv_state sv' = PEmpty /\ sv_error sv' = Some (ServerError r)
        | Escaped _ => sv_state sv' = PEmpty /\ sv_error sv' = Some UnknownError
        end /\
        ((forall data ms, r <> R200 data ms) -> sv_results sv' = sv_results sv /\ sv_shown sv' = sv_shown sv /\ sv_messages sv' = sv_messages sv /\ sv_previous sv' = sv_previous sv)
    end.
  Proof.
    unfold WebPage.press_run. destruct (make_request toFixed10 stringify (sv_previous sv) p) as [q|]; intros E; injection E as <- <-; [|reflexivity].
    destruct (web_run (clocks k) fuel q) as [data ms|e| |e|]; cbn [handle_response sv_state sv_error sv_results sv_shown sv_messages sv_previous];
      (split; [|intros N; first [repeat split; fail|exfalso; exact (N _ _ eq_refl)]]); repeat split.
    - intros l -> H. unfold dmem. now rewrite (proj2 (mem_In l (dkeys data)) H).
    - intros H. destruct (sv_shown sv) as [l|]; [|reflexivity]. unfold dmem. destruct (mem l (dkeys data)) eqn:D; [|reflexivity]. exfalso. apply (H l eq_refl). now apply mem_In.
  Qed.
  (** Comparing: if the box is ticked and the last answered press was for a single algorithm, every algorithm's entry in the new answer comes with
      the differences, new minus old, of exactly the scores that both results have *)
  Theorem C89_compared h sv p q data ms sv' p0 l0 data0 ms0 e0 : visit h sv -> sv_state sv <> PLoading -> press_run (List.length h) sv p = (Asked q (R200 data ms), sv') -> pr_compare p = true ->
    last_answered h p0 data0 ms0 -> pr_algorithm p0 = SArray [l0] -> dget data0 l0 = Some e0 -> reads_back e0 ->
    forall l e, dget data l = Some e -> exists df, we_diff e = Some df /\
      (forall k v, dget (wd_trust df) k = Some v <-> exists s y x, k = show_nat s /\ entry_trust e s = Some y /\ entry_trust e0 s = Some x /\ v = n_sub y x) /\
      (forall k k' v, (exists m, dget (wd_belief df) k = Some m /\ dget m k' = Some v) <-> exists x w y z, k = show_nat x /\ k' = show_w w /\ entry_belief e x w = Some y /\ entry_belief e0 x w = Some z /\ v = n_sub y z).
  Proof.
    intros V NL E Cp LA Ea De Rb l e He. destruct (C89_kept h sv V) as [K _]. destruct (K p0 data0 ms0 LA) as (_ & _ & _ & Kp). rewrite Ea in Kp. destruct Kp as (e0' & De' & Pv). rewrite De in De'. injection De' as <-.
    destruct LA as (h1 & q0 & h2 & Eh & _). destruct (visit_answer h sv p0 q0 (R200 data0 ms0) V ltac:(rewrite Eh; apply in_or_app; right; now left)) as (k0 & R0 & Q0). symmetry in R0.
    destruct (answered_spec _ _ _ _ R0) as (li0 & it0 & m0 & d0 & _ & _ & _ & (_ & _ & _ & S0 & _)). destruct (S0 _ _ De) as (i0 & _ & _ & En0). destruct (entry_fields _ _ _ _ _ _ _ En0) as (r0 & A1 & A2 & A3 & A4 & _).
    unfold WebPage.press_run in E. destruct (make_request toFixed10 stringify (sv_previous sv) p) as [q1|] eqn:Em; [|discriminate]. injection E as -> Er _. 
    assert (Ep : q_previous q = Some (stringify (JvObj (entry_json e0)))).
    { unfold make_request in Em. destruct (if not_voting _ then _ else _); [|discriminate]. injection Em as <-. cbn [q_previous]. now rewrite Cp, Pv. }
    destruct (answered_spec _ _ _ _ Er) as (li1 & it1 & m1 & d1 & _ & _ & _ & (_ & _ & _ & S1 & _)). rewrite Ep in S1. destruct (S1 _ _ He) as (i1 & _ & _ & En1). destruct (entry_fields _ _ _ _ _ _ _ En1) as (r1 & B1 & B2 & B3 & B4 & Df).
    destruct (we_diff e) as [df|]; [|contradiction]. exists df. split; [reflexivity|]. destruct Df as (obj & t & b & u & it & Lo & Hf & (_ & (to & Et & Dt) & (bo & Eb & Db) & _)).
    destruct (read_fields e0 r0 obj t b u it Rb Lo Hf A1 A2 A3 A4) as (_ & _ & (to' & Et' & T1 & T2) & (bo' & Eb' & P1 & P2)). rewrite Et in Et'. injection Et' as <-. rewrite Eb in Eb'. injection Eb' as <-.
    unfold entry_trust, entry_belief. rewrite A1, A2, B1, B2. split.
    - intros k v. rewrite Dt. split.
      + intros (s & y & j & -> & Hy & Hj & Hm). destruct (T2 _ _ Hj) as (s' & x & Es & Hx & ->). apply show_nat_inj in Es. subst s'. cbn in Hm. injection Hm as <-. exists s, y, x. auto.
      + intros (s & y & x & -> & Hy & Hx & ->). exists s, y, (JvNum x). split; [reflexivity|]. split; [exact Hy|]. split; [now apply T1|reflexivity].
    - intros k k' v. rewrite Db. split.
      + intros (x & w & y & m & mo & j & -> & -> & Hm & Hy & Hb & Hj & Hv). destruct (P1 _ _ Hb) as (x' & m' & mo' & Ex & Hm' & Emo & P3). apply show_nat_inj in Ex. subst x'. injection Emo as <-. destruct (P3 _ _ Hj) as (w' & z & Ew & Hz & ->). apply show_w_inj in Ew. subst w'.
        cbn in Hv. injection Hv as <-. exists x, w, y, z. rewrite Hm, Hm'. auto.
      + intros (x & w & y & z & -> & -> & Hy & Hz & ->). destruct (dget (r_belief r1) x) as [m|] eqn:Em1; [|discriminate]. destruct (dget (r_belief r0) x) as [m'|] eqn:Em0; [|discriminate]. destruct (P2 _ _ _ _ Em0 Hz) as (mo & Hb & Hj).
        exists x, w, y, m, mo, (JvNum z). repeat split; auto.
  Qed.
  (** otherwise no differences are shown: the box is not ticked, or there is no answered press, or the last one was not for a single algorithm *)
  Theorem C89_not_compared h sv p q data ms sv' : visit h sv -> press_run (List.length h) sv p = (Asked q (R200 data ms), sv') ->
    pr_compare p = false \/ (forall p0 data0 ms0, ~ last_answered h p0 data0 ms0) \/ (exists p0 data0 ms0, last_answered h p0 data0 ms0 /\ forall l, pr_algorithm p0 <> SArray [l]) ->
    forall l e, dget data l = Some e -> we_diff e = None.
  Proof.
    intros V E H l e He. unfold WebPage.press_run in E. destruct (make_request toFixed10 stringify (sv_previous sv) p) as [q1|] eqn:Em; [|discriminate]. injection E as -> Er _.
    assert (Ep : q_previous q = None).
    { unfold make_request in Em. destruct (if not_voting _ then _ else _); [|discriminate]. injection Em as <-. cbn [q_previous]. destruct (C89_kept h sv V) as [K1 K2]. destruct H as [->|[H|(p0 & data0 & ms0 & LA & N)]]; [reflexivity| |].
      - destruct (K2 H) as [_ ->]. now destruct (pr_compare p).
      - destruct (K1 _ _ _ LA) as (_ & _ & _ & Q). destruct (pr_algorithm p0) as [|s|[|l1 [|]]]; try (rewrite Q; now destruct (pr_compare p)). exfalso. exact (N l1 eq_refl). }
    destruct (answered_spec _ _ _ _ Er) as (li1 & it1 & m1 & d1 & _ & _ & _ & (_ & _ & _ & S1 & _)). rewrite Ep in S1. destruct (S1 _ _ He) as (i1 & _ & _ & En1). destruct (entry_fields _ _ _ _ _ _ _ En1) as (r1 & _ & _ & _ & _ & Df).
    destruct (we_diff e); [contradiction|reflexivity].
  Qed.
  Lemma asked_previous h sv p q r sv' : visit h sv -> press_run (List.length h) sv p = (Asked q r, sv') -> (forall p0 l0 data0 ms0 e0, last_answered h p0 data0 ms0 -> pr_algorithm p0 = SArray [l0] -> dget data0 l0 = Some e0 -> reads_back e0) ->
    q_previous q = None \/ exists e0 r0 j, q_previous q = Some (stringify (JvObj (entry_json e0))) /\ reads_back e0 /\ loads (stringify (JvObj (entry_json e0))) = Some j /\ same_json (JvObj (entry_json e0)) j /\
      dget (we_fields e0) FTrust = Some (VTrust (r_trust r0)) /\ dget (we_fields e0) FBelief = Some (VBelief (r_belief r0)) /\ dget (we_fields e0) FTime = Some (VTime (r_time r0)) /\ dget (we_fields e0) FIterations = Some (VIterations (r_iterations r0)).
  Proof.
    intros V E Hrb. unfold WebPage.press_run in E. destruct (make_request toFixed10 stringify (sv_previous sv) p) as [q1|] eqn:Em; [|discriminate]. injection E as -> Er _.
    unfold make_request in Em. destruct (if not_voting _ then _ else _); [|discriminate]. injection Em as <-. cbn [q_previous]. destruct (pr_compare p); [|now left]. destruct (sv_previous sv) as [o|] eqn:Ev; [|now left]. right.
      destruct (C89_kept h sv V) as [K1 K2]. assert (La : exists p0 data0 ms0, last_answered h p0 data0 ms0).
      { destruct (Classical_Prop.classic (exists p0 data0 ms0, last_answered h p0 data0 ms0)) as [H|H]; [exact H|]. exfalso. destruct K2 as [_ K2]; [intros p0 d0 m0 Q; apply H; eauto|]. congruence. }
      destruct La as (p0 & data0 & ms0 & La). destruct (K1 _ _ _ La) as (_ & _ & _ & Q). destruct (pr_algorithm p0) as [|s|[|l0 [|]]] eqn:Ea; try congruence. destruct Q as (e0 & De & Eo). rewrite Ev in Eo. injection Eo as ->.
      pose proof (Hrb p0 l0 data0 ms0 e0 La Ea De) as Rb. destruct La as (h1 & q0 & h2 & Eh & _). destruct (visit_answer h sv p0 q0 (R200 data0 ms0) V ltac:(rewrite Eh; apply in_or_app; right; now left)) as (k0 & R0 & _). symmetry in R0.
      destruct (answered_spec _ _ _ _ R0) as (li0 & it0 & m0 & d0 & _ & _ & _ & (_ & _ & _ & S0 & _)). destruct (S0 _ _ De) as (i0 & _ & _ & En0). destruct (entry_fields _ _ _ _ _ _ _ En0) as (r0 & A1 & A2 & A3 & A4 & _).
      destruct Rb as (j & Lj & Sj). exists e0, r0, j. split; [reflexivity|]. split; [exists j; auto|]. auto 8.
  Qed.
  (** the results kept are never the reason for an error *)
  Theorem C89_no_error h sv p q r sv' : visit h sv -> press_run (List.length h) sv p = (Asked q r, sv') -> (forall p0 l0 data0 ms0 e0, last_answered h p0 data0 ms0 -> pr_algorithm p0 = SArray [l0] -> dget data0 l0 = Some e0 -> reads_back e0) ->
    (forall b, r <> R400 (BadPrevious b)) /\ r <> Escaped EPrevType.
  Proof.
    intros V E Hrb. pose proof (asked_previous h sv p q r sv' V E Hrb) as Ep. unfold WebPage.press_run in E. destruct (make_request toFixed10 stringify (sv_previous sv) p) as [q1|] eqn:Em; [|discriminate]. injection E as -> Er _.
    destruct (C48_run parse label pfloat decimal DEC ord Ord ltw rnd irrefl T show_nat show_w loads oset Oset show_nat_inj show_w_inj (clocks (List.length h)) fuel q) as [A1 A2]. rewrite Er in A1, A2.
    assert (Main : forall cl ts d ps i l r', refuses show_nat show_w loads cl fuel ts d ps (q_previous q) i l r' -> (forall b, r' <> R400 (BadPrevious b)) /\ r' <> Escaped EPrevType).
    { intros cl ts d ps i l r' R. destruct Ep as [Ep|(e0 & r0 & j & Ep & Rb & Lj & Sj & B1 & B2 & B3 & B4)]; rewrite Ep in R.
      - inversion R; subst; try (split; [intros b Q|intros Q]; discriminate); try discriminate.
      - assert (Obj : exists obj, j = JvObj obj /\ forall f v, dget (we_fields e0) f = Some v -> exists c, dget obj (field_name f) = Some c).
        { inversion Sj as [?|o o' S1 S2]; subst; eexists; (split; [reflexivity|]); intros f v Hv; apply entry_json_get in Hv; [eexists; exact Hv|]. destruct (S1 _ _ Hv) as (c & Hc & _). eauto. }
        destruct Obj as (obj0 & -> & Of).
        inversion R; subst; try (split; [intros b0 Q|intros Q]; discriminate).
        + exfalso. match goal with H : Some _ = Some _ |- _ => injection H as <- end. congruence.
        + exfalso. match goal with H : Some _ = Some _ |- _ => injection H as <- end. match goal with H : loads _ = Some (JvObj obj) |- _ => rewrite Lj in H; injection H as <- end.
          match goal with H : In name result_fields |- _ => cbn [result_fields In] in H; destruct H as [<-|[<-|[<-|[<-|[]]]]] end; [destruct (Of _ _ B1)|destruct (Of _ _ B2)|destruct (Of _ _ B3)|destruct (Of _ _ B4)]; unfold field_name in *; congruence.
        + exfalso. match goal with H : Some _ = Some _ |- _ => injection H as <- end. match goal with H : forall obj, j <> JvObj obj |- _ => apply (H obj0) end. congruence.
        + exfalso. match goal with H : Some _ = Some _ |- _ => injection H as <- end. match goal with H : loads _ = Some (JvObj obj) |- _ => rename H into Lo end. match goal with H : has_fields _ _ _ _ _ |- _ => rename H into Hf end.
          destruct (read_fields e0 r0 obj t b u it Rb Lo Hf B1 B2 B3 B4) as (-> & -> & (to & -> & T1 & T2) & (bo & -> & P1 & P2)). match goal with H : ~ comparable _ _ _ _ _ _ _ |- _ => apply H end. unfold comparable. split; [eexists; reflexivity|]. split; [|split].
          * exists to. split; [reflexivity|]. intros s j' _ Hj. destruct (T2 _ _ Hj) as (s' & x & _ & _ & ->). eexists. reflexivity.
          * exists bo. split; [reflexivity|]. intros x m j' _ Hj. destruct (P1 _ _ Hj) as (x' & m' & mo & _ & _ & -> & P3). exists mo. split; [reflexivity|]. intros w j'' _ Hj'. destruct (P3 _ _ Hj') as (w' & y & _ & _ & ->). eexists. reflexivity.
          * destruct (r_iterations r0); [right; right; eexists; reflexivity|now left]. }
    assert (K : (q_algorithm q = [] \/ q_matrix q = None \/ q_matrix q = Some []) \/ exists text, q_algorithm q <> [] /\ q_matrix q = Some text /\ text <> []).
    { destruct (q_algorithm q) as [|a al]; [left; now left|]. destruct (q_matrix q) as [[|c t]|]; [left; auto| |left; auto]. right. exists (c :: t). repeat split; discriminate. }
    destruct K as [K|(text & K1 & K2 & K3)]; [rewrite (A1 K); split; [intros b Q|intros Q]; discriminate|].
    destruct (A2 text K1 K2 K3) as (lines & Hl & [(bf & li & af & e & _ & _ & _ & Q)|(items & Hi & text' & Ht & Q)]); [rewrite Q; split; [intros b Q'|intros Q']; discriminate|].
    destruct (csv_to_masked_array parse text') as [m|e]; [|rewrite Q; split; [intros b Q'|intros Q']; discriminate]. destruct Q as (d & Ed & Q). 
    destruct r as [data ms|e| |e|]; try (split; [intros b0 Q'|intros Q']; discriminate); cbn [PropsWeb.response_spec] in Q; destruct Q as (i & l & _ & Rf & _); exact (Main _ _ _ _ _ _ _ Rf).
  Qed.
End Together.

(** C89 and C48 together: a press with safe settings is always answered, whatever the visit before *)
Section Sound.
  Context {C W : Type} {EW : Eqb W}.
  Variable parse : pystr -> option (option C).
  Variable label : C -> W.
  Variable pfloat : pystr -> option XR.
  Variable decimal : pychar -> option N.
  Hypothesis DEC : decimal_ok decimal.
  Variable ord : list pystr -> list pystr.
  Hypothesis Ord : forall l, Permutation.Permutation l (ord l).
  Variable ltw : W -> W -> bool.
  Variable rnd : nat -> nat.
  Hypothesis irrefl : forall x : XR, n_ltb x x = false.
  Variable T : trig XR.
  Variable show_nat : nat -> pystr.
  Variable show_w : W -> pystr.
  Variable loads : pystr -> option (jval (F:=XR)).
  Variable oset : list pystr -> list pystr.
  Hypothesis Oset : forall l, Permutation.Permutation (oset l) l.
  Hypothesis show_nat_inj : forall a b, show_nat a = show_nat b -> a = b.
  Hypothesis show_w_inj : forall a b, show_w a = show_w b -> a = b.
  Variable toFixed10 : XR -> pystr.
  Variable json_w : W -> jval (F:=XR).
  Variable stringify : jval (F:=XR) -> pystr.
  Variable first_key : list pystr -> option pystr.
  Hypothesis First : forall l, match first_key l with Some k => In k l | None => l = [] end.
  Variables (clocks : nat -> nat -> nat -> XR) (fuel : nat).
  Notation web_run := (web_run parse label pfloat decimal ord ltw rnd T show_nat show_w loads oset).
  Notation press_run k := (press_run toFixed10 show_nat show_w json_w stringify first_key (web_run (clocks k) fuel)).
  Notation visit := (visit parse label pfloat decimal ord ltw rnd T show_nat show_w loads oset toFixed10 json_w stringify first_key clocks fuel).
  Notation reads_back := (reads_back show_nat show_w loads json_w stringify).

  Theorem C89_safe h sv (p : press XR) q r sv' : visit h sv -> press_run (List.length h) sv p = (Asked q r, sv') ->
    (forall p0 l0 data0 ms0 e0, last_answered h p0 data0 ms0 -> pr_algorithm p0 = SArray [l0] -> dget data0 l0 = Some e0 -> reads_back e0) ->
    (forall lines items text text' m, parameter_lines q lines -> Forall2 (fun s it => algorithm_parameter pfloat decimal s = Ok it) lines items ->
       q_matrix q = Some text -> no_underscores text text' -> csv_to_masked_array parse text' = Ok m -> safe (q_algorithm q) (dict_of items) (get_triples label m)) ->
    (forall e, r <> Escaped e) /\ ((1000000 < Z.of_nat fuel)%Z -> ~ In (lit_str "usums") (q_algorithm q) -> r <> NoResponse).
  Proof.
    intros V E Hrb Sf. assert (Pv : previous_sound loads (q_previous q)).
    { destruct (asked_previous parse label pfloat decimal DEC ord Ord ltw rnd irrefl T show_nat show_w loads oset Oset show_nat_inj show_w_inj toFixed10 json_w stringify first_key First clocks fuel h sv p q r sv' V E Hrb)
        as [->|(e0 & r0 & j & -> & Rb & Lj & Sj & B1 & B2 & B3 & B4)]; [exact I|]. unfold previous_sound. rewrite Lj.
      assert (Obj : exists obj, j = JvObj obj) by (inversion Sj; eauto). destruct Obj as (obj & ->). intros t b u it Hf.
      destruct (read_fields show_nat show_w loads show_nat_inj show_w_inj json_w stringify e0 r0 obj t b u it Rb Lj Hf B1 B2 B3 B4) as (-> & -> & (to & -> & T1 & T2) & (bo & -> & P1 & P2)).
      split; [eexists; reflexivity|]. split; [destruct (r_iterations r0); [right; eexists; reflexivity|now left]|]. split.
      - exists to. split; [reflexivity|]. intros k j Hj. destruct (T2 _ _ Hj) as (s' & x & _ & _ & ->). eexists. reflexivity.
      - exists bo. split; [reflexivity|]. intros k j Hj. destruct (P1 _ _ Hj) as (x' & m' & mo & _ & _ & -> & P3). exists mo. split; [reflexivity|]. intros k' j'' Hj'. destruct (P3 _ _ Hj') as (w' & y & _ & _ & ->). eexists. reflexivity. }
    unfold WebPage.press_run in E. destruct (make_request toFixed10 stringify (sv_previous sv) p) as [q1|]; [|discriminate]. injection E as -> <- _.
    exact (C48_no_escape parse label pfloat decimal DEC ord Ord ltw rnd irrefl T show_nat show_w loads oset Oset show_nat_inj show_w_inj (clocks (List.length h)) fuel q Sf Pv).
  Qed.
End Sound.

(** * Non-vacuity *)
Module PageExamples.
  Import CsvExamples ClientExamples CliExamples WebExamples.
  Local Close Scope R_scope.
  Definition first_of (l : list pystr) : option pystr := match l with k :: _ => Some k | [] => None end.
  Lemma first_of_ok l : match first_of l with Some k => In k l | None => l = [] end.
  Proof. destruct l; [reflexivity|now left]. Qed.
  (** one algorithm, seven rounds, no parameters of the user's own, comparing with previous results *)
  Definition settings : iteration XR := Iteration (lit_str "fixed") (Some 7%N) (lit_str "l2") (Some (lit 1 10)).
  Definition the_press : press XR := Press (SArray [lit_str "sums"]) (to_csv show1 m2) true settings [].
  Example settings_chosen toFixed10 : chosen pf toFixed10 settings (IFixed 7 0).
  Proof. apply (chosen_fixed pf toFixed10 settings 7%N); [reflexivity|reflexivity|lia]. Qed.
  Example threshold_chosen toFixed10 y : (forall x : XR, toFixed10 x = lit_str "0.1000000000") -> pf (lit_str "0.1000000000") = Some y ->
    chosen pf toFixed10 (Iteration (lit_str "convergence") (Some 7%N) (lit_str "l2") (Some (lit 1 10))) (IConv L2 y 100 0 None).
  Proof.
    intros H Hy. apply (chosen_convergence pf toFixed10 _ L2 (lit 1 10) y); try reflexivity; rewrite ?H; auto. split; [discriminate|]. split; [intros Q; vm_compute in Q; repeat destruct Q as [Q|Q]; try discriminate; destruct Q|].
    apply lit_no_space. reflexivity.
  Qed.
  Example own_lines : lines_of (lit_str "priors=voted") [lit_str "priors=voted"] /\ lines_of [] [].
  Proof. split; [right|now left]. split; [discriminate|]. split; [discriminate|]. split; [reflexivity|]. intros l [<-|[]] Q. vm_compute in Q. repeat destruct Q as [Q|Q]; try discriminate; destruct Q. Qed.

  Section AnyTrig.
    Variables (T : trig XR) (clocks : nat -> nat -> nat -> XR) (toFixed10 : XR -> pystr) (json_w : nat -> jval (F:=XR)) (stringify : jval (F:=XR) -> pystr).
    Notation page loads := (web_run parse1 (fun n : nat => n) pf ascii_decimal ident Nat.ltb (fun _ => 0) T show1 show1 loads ident).
    Notation asks loads k := (press_run toFixed10 show1 show1 json_w stringify first_of (page loads (clocks k) 100)).
    Notation visited loads := (visit parse1 (fun n : nat => n) pf ascii_decimal ident Nat.ltb (fun _ => 0) T show1 show1 loads ident toFixed10 json_w stringify first_of clocks 100).
    Definition sent_request previous := Request [lit_str "sums"] (Some (to_csv show1 m2)) (Some (lit_str "iterator=fixed-7")) previous.
    Lemma makes previous : make_request toFixed10 stringify previous the_press = Some (sent_request (option_map (fun o => stringify (JvObj o)) previous)).
    Proof. unfold make_request. cbn [pr_compare the_press]. destruct previous; reflexivity. Qed.
    Lemma the_lines previous lines : parameter_lines (sent_request previous) lines -> lines = [lit_str "iterator=fixed-7"].
    Proof. exact (lines1 previous lines). Qed.
    Lemma the_safe previous lines items text text' m : parameter_lines (sent_request previous) lines -> Forall2 (fun s it => algorithm_parameter pf ascii_decimal s = Ok it) lines items ->
       q_matrix (sent_request previous) = Some text -> no_underscores text text' -> csv_to_masked_array parse1 text' = Ok m ->
       items = [(lit_str "iterator", PIterator (IFixed 7 0))] /\ m = m2 /\ safe (q_algorithm (sent_request previous)) (dict_of items) (get_triples (fun n : nat => n) m).
    Proof.
      intros Hl Hi Hm Ht Em. destruct (safe1 previous lines items text text' m Hl Hi Hm Ht Em) as (-> & -> & (S1 & S2 & S3)). split; [reflexivity|]. split; [reflexivity|]. split; [exact S1|]. split; intros [H|[]]; discriminate H.
    Qed.
    (** any answer that is neither an escaped exception nor a complaint about the previous results has results *)
    Lemma results_from loads k previous : (forall e, page loads (clocks k) 100 (sent_request previous) <> Escaped e) -> (forall b, page loads (clocks k) 100 (sent_request previous) <> R400 (BadPrevious b)) ->
      exists data ms e, page loads (clocks k) 100 (sent_request previous) = R200 data ms /\ dget data (lit_str "sums") = Some e.
    Proof.
      intros Ne Np.
      destruct (C48_run parse1 (fun n : nat => n) pf ascii_decimal ascii_ok ident ident_ok Nat.ltb (fun _ => 0) xr_irrefl T show1 show1 loads ident ident_ok' show1_inj show1_inj (clocks k) 100 (sent_request previous)) as [_ Q].
      destruct (Q (to_csv show1 m2) ltac:(discriminate) eq_refl ltac:(discriminate)) as (lines & Hl & [(b & li & af & e & El & _ & Ee & _)|(items & Hi & text' & Ht & Q')]).
      { exfalso. rewrite (the_lines previous lines Hl) in El. destruct b as [|? [|]]; [injection El as <- <-; vm_compute in Ee; discriminate|discriminate|discriminate]. }
      assert (Ec : csv_to_masked_array parse1 text' = Ok m2) by (unfold no_underscores in Ht; rewrite Ht; vm_compute; reflexivity). rewrite Ec in Q'. destruct Q' as (d & Ed & Q').
      destruct (the_safe previous lines items _ text' m2 Hl Hi eq_refl Ht Ec) as (-> & _ & _). clear Q Hl Hi Ht Ec. change (build false None (get_triples (fun n : nat => n) m2) = Ok d) in Ed.
      assert (Ok1 : forall i l c r, In l (q_algorithm (sent_request previous)) -> In (l, c) label_table -> alone (clocks k (2 * i)) 100 (dict_of [(lit_str "iterator", PIterator (IFixed 7 0))]) d c r -> exists x, r = Ok x).
      { intros i l c r Hl Hc (o & Eo & ->). assert (Ko : o = OIterative (AObj Sums FIXED (IFixed 7 0) None)).
        { destruct Hl as [<-|[]]; apply (proj2 (proj1 (C47_labels _ _))) in Hc; vm_compute in Hc; injection Hc as <-; cbn in Eo; injection Eo as <-; reflexivity. }
        subst o. destruct (C28_fixed_returns false None (get_triples (fun n : nat => n) m2) d Ed (clocks k (2 * i)) 100 Sums FIXED 7 0 None ltac:(discriminate) ltac:(discriminate) ltac:(discriminate) ltac:(cbn; lia)) as [x Ex].
        exists x. rewrite <- Ex. clear. unfold crun. now destruct (run _ _ _ _) as [r1 o1]. }
      destruct (page loads (clocks k) 100 (sent_request previous)) as [out ms|e| |e|].
      - destruct Q' as (_ & _ & Q & _). assert (Hs : In (lit_str "sums") (dkeys out)) by (apply Q; now left). destruct (dget out (lit_str "sums")) as [e|] eqn:De; [|apply dget_None in De; contradiction]. exists out, ms, e. split; [reflexivity|exact De].
      - exfalso. destruct Q' as (i & l & Hn & Hr & _). apply nth_error_In in Hn. inversion Hr; subst; try discriminate; try (eapply Np; reflexivity).
        match goal with H : forall c, ~ In (l, c) label_table |- _ => destruct Hn as [<-|[]]; apply (H CSums); cbn; tauto end.
      - exfalso. destruct Q' as (i & l & Hn & Hr & _). apply nth_error_In in Hn. inversion Hr; subst. match goal with A : alone _ _ _ _ _ _ |- _ => destruct (Ok1 i l _ _ Hn ltac:(eassumption) A); discriminate end.
      - exfalso. exact (Ne e eq_refl).
      - exfalso. destruct Q' as (i & l & Hn & Hr & _). apply nth_error_In in Hn. inversion Hr; subst. match goal with A : alone _ _ _ _ _ _ |- _ => destruct (Ok1 i l _ _ Hn ltac:(eassumption) A); discriminate end.
    Qed.
    Lemma first_answer loads k : exists data ms e, page loads (clocks k) 100 (sent_request None) = R200 data ms /\ dget data (lit_str "sums") = Some e.
    Proof.
      assert (Ne : forall e, page loads (clocks k) 100 (sent_request None) <> Escaped e).
      { refine (proj1 (C48_no_escape parse1 (fun n : nat => n) pf ascii_decimal ascii_ok ident ident_ok Nat.ltb (fun _ => 0) xr_irrefl T show1 show1 loads ident ident_ok' show1_inj show1_inj (clocks k) 100 (sent_request None) _ I)).
        intros lines items text text' m H1 H2 H3 H4 H5. exact (proj2 (proj2 (the_safe None lines items text text' m H1 H2 H3 H4 H5))). }
      apply results_from; [exact Ne|]. intros b Q.
      pose proof (C89_no_error parse1 (fun n : nat => n) pf ascii_decimal ascii_ok ident ident_ok Nat.ltb (fun _ => 0) xr_irrefl T show1 show1 loads ident ident_ok' show1_inj show1_inj toFixed10 json_w stringify first_of first_of_ok (fun _ => clocks k) 100 [] new_service the_press (sent_request None) _ _
        (page_opened _ _ _ _ _ _ _ _ _ _ _ _ _ _ _ _ _ _) eq_refl) as H.
      destruct H as [H _]; [|exact (H b Q)]. intros p0 l0 data0 ms0 e0 (h1 & q & h2 & E0 & _). destruct h1; discriminate.
    Qed.
    (** without previous results the answer does not depend on how JSON is read *)
    Lemma loads_unused loads loads' k : page loads (clocks k) 100 (sent_request None) = page loads' (clocks k) 100 (sent_request None).
    Proof. unfold Front.web_run. cbn [q_algorithm q_matrix q_parameters q_previous sent_request]. reflexivity. Qed.
    (** two presses of the button: the second answer has the differences *)
    Example twice : exists loads h sv data0 ms0 e0 data ms e df q sv', visited loads h sv /\ last_answered h the_press data0 ms0 /\ dget data0 (lit_str "sums") = Some e0 /\ reads_back show1 show1 loads json_w stringify e0 /\
      asks loads (List.length h) sv the_press = (Asked q (R200 data ms), sv') /\ dget data (lit_str "sums") = Some e /\ we_diff e = Some df.
    Proof.
      destruct (first_answer (fun _ => None) 0) as (data0 & ms0 & e0 & R0 & D0). set (loads := fun _ : pystr => Some (JvObj (entry_json show1 show1 json_w e0))).
      rewrite (loads_unused _ loads) in R0. assert (Rb : reads_back show1 show1 loads json_w stringify e0) by (exists (JvObj (entry_json show1 show1 json_w e0)); split; [reflexivity|apply same_value]).
      set (sv1 := snd (asks loads 0 new_service the_press)).
      assert (P1 : asks loads 0 new_service the_press = (Asked (sent_request None) (R200 data0 ms0), sv1)) by (unfold sv1, press_run; cbn [sv_previous new_service]; rewrite (makes None); cbn [option_map snd]; now rewrite R0).
      set (h := [(the_press, Asked (sent_request None) (R200 data0 ms0))]).
      assert (V1 : visited loads h sv1) by (apply (run_pressed _ _ _ _ _ _ _ _ _ _ _ _ _ _ _ _ _ _ [] new_service the_press (Asked (sent_request None) (R200 data0 ms0)) sv1); [constructor|discriminate|exact P1]).
      assert (La : last_answered h the_press data0 ms0) by (exists [], (sent_request None), []; split; [reflexivity|intros ? ? ? ? []]).
      destruct (asks loads 1 sv1 the_press) as [o sv2] eqn:P2. assert (Pv : sv_previous sv1 = Some (entry_json show1 show1 json_w e0)).
      { destruct (C89_kept parse1 (fun n : nat => n) pf ascii_decimal ascii_ok ident ident_ok Nat.ltb (fun _ => 0) xr_irrefl T show1 show1 loads ident ident_ok' show1_inj show1_inj toFixed10 json_w stringify first_of first_of_ok clocks 100 h sv1 V1) as [K _].
        destruct (K _ _ _ La) as (_ & _ & _ & (e & De & Ke)). rewrite D0 in De. injection De as <-. exact Ke. }
      pose proof P2 as P2'. unfold press_run in P2'. rewrite Pv, makes in P2'. cbn [option_map] in P2'. set (q2 := sent_request _) in P2'. 
      assert (Eo : o = Asked q2 (page loads (clocks 1) 100 q2)) by congruence. clear P2'. subst o.
      assert (Hrb : forall p0 l0 data1 ms1 e1, last_answered h p0 data1 ms1 -> pr_algorithm p0 = SArray [l0] -> dget data1 l0 = Some e1 -> reads_back show1 show1 loads json_w stringify e1).
      { intros p0 l0 data1 ms1 e1 L1 A1 D1. destruct L1 as (h1 & q & t & Eh & _). destruct h1 as [|? [|]]; [|discriminate|discriminate]. injection Eh as <- <- <- <- <-. change (SArray [lit_str "sums"] = SArray [l0]) in A1. assert (El : l0 = lit_str "sums") by congruence. rewrite El, D0 in D1. injection D1 as <-. exact Rb. }
      destruct (C89_no_error parse1 (fun n : nat => n) pf ascii_decimal ascii_ok ident ident_ok Nat.ltb (fun _ => 0) xr_irrefl T show1 show1 loads ident ident_ok' show1_inj show1_inj toFixed10 json_w stringify first_of first_of_ok clocks 100 h sv1 the_press _ _ _ V1 P2 Hrb) as [Np _].
      destruct (C89_safe parse1 (fun n : nat => n) pf ascii_decimal ascii_ok ident ident_ok Nat.ltb (fun _ => 0) xr_irrefl T show1 show1 loads ident ident_ok' show1_inj show1_inj toFixed10 json_w stringify first_of first_of_ok clocks 100 h sv1 the_press _ _ _ V1 P2 Hrb) as [Ne _].
      { intros lines items text text' m H1 H2 H3 H4 H5. exact (proj2 (proj2 (the_safe _ lines items text text' m H1 H2 H3 H4 H5))). }
      destruct (results_from loads 1 _ Ne Np) as (data & ms & e & R & De). unfold q2 in P2. rewrite R in P2.
      destruct (C89_compared parse1 (fun n : nat => n) pf ascii_decimal ascii_ok ident ident_ok Nat.ltb (fun _ => 0) xr_irrefl T show1 show1 loads ident ident_ok' show1_inj show1_inj toFixed10 json_w stringify first_of first_of_ok clocks 100 h sv1 the_press _ _ _ _ the_press (lit_str "sums") data0 ms0 e0 V1
        ltac:(unfold sv1; unfold press_run; cbn [sv_previous new_service]; rewrite (makes None); cbn [option_map snd]; rewrite R0; discriminate) P2 eq_refl La eq_refl D0 Rb (lit_str "sums") e De) as (df & Df & _).
      exists loads, h, sv1, data0, ms0, e0, data, ms, e, df, (sent_request (option_map (fun o => stringify (JvObj o)) (Some (entry_json show1 show1 json_w e0)))), sv2. auto 10.
    Qed.
    (** four algorithms, "voting" among them, not comparing *)
    Definition voting_press : press XR := Press (SArray (q_algorithm (request1 None))) (to_csv show1 m2) false settings [].
    Example voting_warned loads : exists q data ms sv' names, asks loads 0 new_service voting_press = (Asked q (R200 data ms), sv') /\ In (warning CMajorityVoting names) ms /\ In (lit_str "iterator") names.
    Proof.
      destruct (answered T loads (clocks 0)) as (out & ms & A & _). assert (E1 : asks loads 0 new_service voting_press = (Asked (request1 None) (R200 out ms), snd (asks loads 0 new_service voting_press))).
      { unfold press_run. assert (M : make_request toFixed10 stringify (sv_previous (new_service (W:=nat) (F:=XR))) voting_press = Some (request1 None)) by reflexivity. rewrite M. cbn [snd]. now rewrite A. }
      destruct (C88_voting_warns parse1 (fun n : nat => n) pf ascii_decimal ascii_ok ident ident_ok Nat.ltb (fun _ => 0) xr_irrefl T show1 show1 loads ident ident_ok' show1_inj show1_inj toFixed10 json_w stringify first_of clocks 100
        0 new_service voting_press (IFixed 7 0) [] [] (request1 None) out ms _ ltac:(discriminate) (settings_chosen toFixed10) (proj2 own_lines) ltac:(constructor) E1 ltac:(do 2 right; now left)) as (names & N1 & N2).
      exists (request1 None), out, ms, (snd (asks loads 0 new_service voting_press)), names. auto.
    Qed.
  End AnyTrig.
End PageExamples.
