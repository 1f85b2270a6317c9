(** C66 (data and true values read from files), C67 (tab-separated files), C68 (the stock market files). *)
From Coq Require Import NArith String.
From Verif Require Import Base Num Spec Dataset DatasetProofs DatasetRep PyStr Matrix PropsMatrix File.

(** * C66 *)
Section C66.
  Context {S V W : Type} {ES : Eqb S} {EV : Eqb V} {EW : Eqb W} {F : Num} {FOK : NumOK F} {E : Type}.
  Implicit Type g : pystr -> gen (S * V * W) E.
  (** a reader that finishes: the dataset (or the error) is that of the Dataset constructor on the tuples it yields *)
  Theorem C66_dataset g b (impf : option (V -> W -> W -> option F)) text ts : g text = (ts, None) ->
    match build b impf ts with
    | Ok d => file_dataset (Some g) b impf text = Ok d
    | Err e => file_dataset (Some g) b impf text = Err (OfDataset e)
    end.
  Proof. intros H. cbn. rewrite H. destruct (build b impf ts); reflexivity. Qed.
  (** a reader that raises: its exception comes out, unless a claim it had yielded before was already refused *)
  Theorem C66_reader_fails g (b : bool) (impf : option (V -> W -> W -> option F)) text ts e : g text = (ts, Some e) ->
    if b then file_dataset (Some g) b impf text = Err (OfReader e)
    else (NoDup (sv_pairs ts) /\ file_dataset (Some g) b impf text = Err (OfReader e)) \/
         (exists s x, first_repeat ts s x /\ file_dataset (Some g) b impf text = Err (OfDataset (MultipleClaims s x))).
  Proof.
    intros H. cbn. rewrite H. destruct b.
    - destruct (dloop_allow ts) as (st & -> & _). reflexivity.
    - destruct (dloop_strict ts) as [(ND & st & -> & _)|(s & x & Hr & ->)]; [left; auto|right; eauto].
  Qed.
  (** the abstract class itself cannot be used *)
  Theorem C66_abstract b (impf : option (V -> W -> W -> option F)) text : file_dataset (E:=E) None b impf text = Err NotImplemented.
  Proof. reflexivity. Qed.

  (** the true values: the last pair for a variable counts, every variable once, in the order of their first pairs *)
  Definition last_pair (ps : list (V * W)) (x : V) (w : W) : Prop := exists before after, ps = before ++ (x, w) :: after /\ ~ In x (map fst after).
  Theorem C66_values (g : pystr -> gen (V * W) E) text ps : g text = (ps, None) ->
    exists values, file_values (S:=S) (Some g) text = Ok values /\ (forall x w, dget values x = Some w <-> last_pair ps x w) /\ dkeys values = distinct (map fst ps).
  Proof.
    intros H. cbn. rewrite H. exists (dict_of ps). split; [reflexivity|]. clear H. induction ps as [|[y v] ps [IH IHk]] using rev_ind.
    - split; [|reflexivity]. intros x w. cbn. split; [discriminate|]. intros (bf & af & Q & _). destruct bf; discriminate.
    - assert (Ed : dict_of (ps ++ [(y, v)]) = dset (dict_of ps) y v) by (unfold dict_of; rewrite fold_left_app; reflexivity). rewrite Ed. split.
      + intros x w. rewrite dget_dset. destruct (beq_spec x y) as [->|N].
        * split; [intros [= ->]; exists ps, []; cbn; auto|]. intros (bf & af & Q & Na). destruct af as [|p af] using rev_ind.
          -- apply app_inj_tail in Q. destruct Q as [_ Q]. congruence.
          -- exfalso. rewrite app_comm_cons, app_assoc in Q. apply app_inj_tail in Q. destruct Q as [_ <-]. apply Na. rewrite map_app. apply in_app_iff. right. now left.
        * rewrite IH. split; intros (bf & af & Q & Na).
          -- exists bf, (af ++ [(y, v)]). rewrite Q, app_comm_cons, app_assoc. split; [reflexivity|]. rewrite map_app, in_app_iff. cbn. intros [H|[H|[]]]; [auto|congruence].
          -- destruct af as [|p af _] using rev_ind; [apply app_inj_tail in Q; destruct Q as [_ Q]; congruence|]. rewrite app_comm_cons, app_assoc in Q. apply app_inj_tail in Q. destruct Q as [Q _].
             exists bf, af. split; [exact Q|]. intros H. apply Na. rewrite map_app. apply in_app_iff. now left.
      + rewrite map_app. cbn [map fst]. rewrite distinct_snoc, dkeys_dset, IHk.
        assert (Q : dmem (dict_of ps) y = mem y (map fst ps)).
        { apply eq_true_iff_eq. rewrite mem_In, <- distinct_In, <- IHk. unfold dmem. apply mem_In. }
        rewrite Q. reflexivity.
  Qed.
End C66.

(** * C67 *)
(** Lines as Python yields them: they make up the text, each ends in its only newline, except that the last may have none *)
Definition full_line (l : pystr) : Prop := exists t, l = t ++ [newline] /\ ~ In newline t.
Theorem C67_lines text : concat (file_lines text) = text /\
  ((forall l, In l (file_lines text) -> full_line l) \/
   exists ls l, file_lines text = ls ++ [l] /\ (forall l, In l ls -> full_line l) /\ l <> [] /\ ~ In newline l).
Proof.
  induction text as [|c t [IH1 IH2]]; [split; [reflexivity|left; intros l []]|]. cbn [file_lines]. destruct (N.eqb_spec c newline) as [->|N].
  - split; [cbn; now rewrite IH1|]. assert (Hf : full_line [newline]) by (exists []; split; [reflexivity|intros []]). destruct IH2 as [IH2|(ls & l & E & H1 & H2 & H3)].
    + left. intros l [<-|H]; auto.
    + right. exists ([newline] :: ls), l. rewrite E. split; [reflexivity|]. split; [intros l' [<-|H]; auto|auto].
  - assert (Ne : forall l, In l (file_lines t) -> l <> []).
    { clear. induction t as [|c t IH]; [intros l []|]. cbn [file_lines]. destruct (N.eqb c newline); [intros l [<-|H]; [discriminate|auto]|]. destruct (file_lines t); intros l' [<-|H]; try discriminate; [destruct H|apply IH; now right]. }
    destruct (file_lines t) as [|l0 r] eqn:El.
    + cbn in IH1. subst t. split; [reflexivity|]. right. exists [], [c]. split; [reflexivity|]. split; [intros l []|]. split; [discriminate|]. intros [H|[]]. congruence.
    + split; [cbn in *; now rewrite IH1|]. assert (Fl : forall l, full_line l -> full_line (c :: l)).
      { intros l (u & -> & Nu). exists (c :: u). split; [reflexivity|]. intros [H|H]; [congruence|auto]. }
      destruct IH2 as [IH2|(ls & l & E & H1 & H2 & H3)].
      * left. intros l [<-|H]; [apply Fl, IH2; now left|apply IH2; now right].
      * right. destruct ls as [|l1 ls]; cbn in E; injection E as -> ->.
        -- exists [], (c :: l). split; [reflexivity|]. split; [intros l' []|]. split; [discriminate|]. intros [H|H]; [congruence|auto].
        -- exists ((c :: l1) :: ls), l. split; [reflexivity|]. split; [|auto]. intros l' [<-|H]; [apply Fl, H1; now left|apply H1; now right].
Qed.
Lemma lines_cons t rest : ~ In newline t -> file_lines (t ++ newline :: rest) = (t ++ [newline]) :: file_lines rest.
Proof.
  induction t as [|c t IH]; intros H; cbn [app file_lines]; [now rewrite N.eqb_refl|]. destruct (N.eqb_spec c newline) as [->|N]; [exfalso; apply H; now left|].
  rewrite IH by (intros Q; apply H; now right). reflexivity.
Qed.
Lemma lines_last t : ~ In newline t -> t <> [] -> file_lines t = [t].
Proof.
  induction t as [|c t IH]; intros H Ne; [congruence|]. cbn [file_lines]. destruct (N.eqb_spec c newline) as [->|N]; [exfalso; apply H; now left|].
  destruct t as [|c' t]; [reflexivity|]. rewrite IH; [reflexivity|intros Q; apply H; now right|discriminate].
Qed.
(** a field: no tab and no newline in it *)
Definition field (f : pystr) : Prop := ~ In tab f /\ ~ In newline f.
Definition record := (pystr * pystr * list pystr)%type.
Definition fields (r : record) : list pystr := let '(s, x, vals) := r in s :: x :: vals.
(** a record written on a line of its own *)
Definition tsv_line (r : record) : pystr := join [tab] (fields r).
(** the newline of the line becomes part of its last field *)
Definition with_newline (r : record) : record :=
  let '(s, x, vals) := r in match vals with [] => (s, x ++ [newline], []) | _ => (s, x, removelast vals ++ [last vals [] ++ [newline]]) end.
Lemma join_snoc sep l x y : join sep (l ++ [x]) ++ y = join sep (l ++ [x ++ y]).
Proof. induction l as [|a l IH]; [reflexivity|]. destruct l as [|b l]; [cbn; rewrite <- !app_assoc; reflexivity|]. change (join sep ((a :: b :: l) ++ [x])) with (a ++ sep ++ join sep ((b :: l) ++ [x])). rewrite <- !app_assoc, IH. reflexivity. Qed.
Lemma not_in_join c sep l : c <> sep -> (forall f, In f l -> ~ In c f) -> ~ In c (join [sep] l).
Proof.
  intros N. induction l as [|a [|b l] IH]; intros H; [intros []|apply H; now left|]. change (join [sep] (a :: b :: l)) with (a ++ [sep] ++ join [sep] (b :: l)). rewrite !in_app_iff.
  intros [Q|[[Q|[]]|Q]]; [exact (H a (or_introl eq_refl) Q)|congruence|]. apply IH in Q; [exact Q|]. intros f Hf. apply H. now right.
Qed.
Lemma tsv_line_no_newline r : (forall f, In f (fields r) -> field f) -> ~ In newline (tsv_line r).
Proof. intros H. apply not_in_join; [discriminate|]. intros f Hf. apply H, Hf. Qed.
Lemma fields_with_newline r : exists l x, fields r = l ++ [x] /\ fields (with_newline r) = l ++ [x ++ [newline]].
Proof.
  destruct r as [[s x] vals]. destruct vals as [|v vals]; [exists [s], x; auto|]. cbn [with_newline fields]. exists (s :: x :: removelast (v :: vals)), (last (v :: vals) []).
  split; [cbn [app]; do 2 f_equal; apply app_removelast_last; discriminate|reflexivity].
Qed.
Lemma read_fields l r : l = fields r -> (forall f, In f l -> ~ In tab f) -> tsv_tuple (join [tab] l) = Some r.
Proof. intros -> H. unfold tsv_tuple. rewrite split_join; [destruct r as [[s x] vals]; reflexivity|destruct r as [[s x] vals]; discriminate|exact H]. Qed.
(** Records written one to a line are read back, each with the newline at the end of its last field. *)
Theorem C67_reads (rs : list record) : (forall r f, In r rs -> In f (fields r) -> field f) ->
  tsv_tuples (concat (map (fun r => tsv_line r ++ [newline]) rs)) = (map with_newline rs, None).
Proof.
  intros H. unfold tsv_tuples. f_equal. induction rs as [|r rs IH]; [reflexivity|]. cbn [map concat]. rewrite <- app_assoc. cbn [app].
  rewrite lines_cons by (apply tsv_line_no_newline; intros f Hf; exact (H r f (or_introl eq_refl) Hf)). cbn [flat_map].
  rewrite IH by (intros r' f Hr Hf; apply (H r' f); [now right|exact Hf]). destruct (fields_with_newline r) as (l & x & E1 & E2).
  assert (Fl : forall f, In f (l ++ [x]) -> field f) by (intros f Hf; apply (H r f); [now left|now rewrite E1]).
  unfold tsv_line. rewrite E1, join_snoc, (read_fields _ (with_newline r)); [reflexivity|symmetry; exact E2|].
  intros f Hf. apply in_app_iff in Hf. destruct Hf as [Hf|[<-|[]]]; [apply Fl, in_app_iff; now left|]. rewrite in_app_iff. intros [Q|[Q|[]]]; [|discriminate]. assert (Fx : field x) by (apply Fl, in_app_iff; right; now left). exact (proj1 Fx Q).
Qed.
(** A last line without a newline is read as it is. *)
Theorem C67_unterminated (rs : list record) (r : record) : (forall r' f, In r' (r :: rs) -> In f (fields r') -> field f) -> tsv_line r <> [] ->
  tsv_tuples (concat (map (fun r => tsv_line r ++ [newline]) rs) ++ tsv_line r) = (map with_newline rs ++ [r], None).
Proof.
  intros H Ne. assert (Hr : forall r' f, In r' rs -> In f (fields r') -> field f) by (intros r' f Hr'; apply H; now right).
  induction rs as [|r0 rs IH]; unfold tsv_tuples in *; f_equal.
  - cbn [map concat app]. rewrite lines_last; [|apply tsv_line_no_newline; intros f Hf; exact (H r f (or_introl eq_refl) Hf)|exact Ne].
    cbn [flat_map]. unfold tsv_line. rewrite (read_fields _ r eq_refl); [reflexivity|]. intros f Hf. apply (H r f (or_introl eq_refl) Hf).
  - pose proof (C67_reads [r0] ltac:(intros r' f [<-|[]]; apply Hr; now left)) as Q0. unfold tsv_tuples in Q0. injection Q0 as Q0. cbn [map concat] in Q0. rewrite app_nil_r in Q0.
    cbn [map concat]. rewrite <- !app_assoc. cbn [app]. rewrite lines_cons by (apply tsv_line_no_newline; intros f Hf; exact (Hr r0 f (or_introl eq_refl) Hf)).
    rewrite lines_cons in Q0 by (apply tsv_line_no_newline; intros f Hf; exact (Hr r0 f (or_introl eq_refl) Hf)). cbn [flat_map file_lines] in *. rewrite app_nil_r in Q0. rewrite Q0. cbn [app]. f_equal.
    assert (IH' := IH ltac:(intros r' f [<-|Hr']; [apply H; now left|apply H; right; now right]) ltac:(intros r' f Hr'; apply Hr; now right)). now injection IH' as IH'.
Qed.
(** A line with no tab is skipped, and the message gives its number; the other lines are read as if it were not there. *)
Theorem C67_skips before l after : ~ In tab l -> ~ In newline l -> (before = [] \/ exists t, before = t ++ [newline]) ->
  fst (tsv_tuples (before ++ l ++ [newline] ++ after)) = fst (tsv_tuples (before ++ after)) /\ In (length (file_lines before)) (tsv_messages (before ++ l ++ [newline] ++ after)).
Proof.
  intros Ht Hn Hb. assert (Ap : forall a b, (a = [] \/ exists t, a = t ++ [newline]) -> file_lines (a ++ b) = file_lines a ++ file_lines b).
  { clear. intros a b [->|(t & ->)]; [reflexivity|]. remember (length t) as n eqn:En. revert t En. induction n as [n IH] using lt_wf_ind. intros t ->.
    destruct (in_dec N.eq_dec newline t) as [Hi|Hi].
    - assert (Sp : exists u v, t = u ++ newline :: v /\ ~ In newline u).
      { clear -Hi. induction t as [|c t IHt]; [destruct Hi|]. destruct (N.eq_dec c newline) as [->|N]; [exists [], t; split; [reflexivity|intros []]|]. destruct Hi as [Q|Hi]; [congruence|]. destruct (IHt Hi) as (u & v & -> & Nu). exists (c :: u), v. split; [reflexivity|]. intros [Q|Q]; [congruence|auto]. }
      destruct Sp as (u & v & -> & Nu). rewrite <- !app_assoc. cbn [app]. rewrite (lines_cons u (v ++ newline :: b) Nu), (lines_cons u (v ++ [newline]) Nu). cbn [app]. f_equal.
      replace (v ++ newline :: b) with ((v ++ [newline]) ++ b) by (rewrite <- app_assoc; reflexivity). apply (IH (length v)); [rewrite app_length; cbn; lia|reflexivity].
    - rewrite <- app_assoc. cbn [app]. rewrite (lines_cons t b Hi), (lines_cons t [] Hi). reflexivity. }
  assert (Bad : tsv_tuple (l ++ [newline]) = None).
  { unfold tsv_tuple. rewrite split_on_none; [reflexivity|]. rewrite in_app_iff. intros [Q|[Q|[]]]; [auto|discriminate]. }
  change ([newline] ++ after) with (newline :: after). unfold tsv_tuples, tsv_messages. cbn [fst]. rewrite !(Ap before) by exact Hb. rewrite !flat_map_app. rewrite (lines_cons l after Hn). cbn [flat_map]. rewrite Bad. split; [reflexivity|].
  apply in_flat_map. exists (length (file_lines before), l ++ [newline]). split; [|cbn [fst snd]; rewrite Bad; now left].
  apply enum_from_In. split; [lia|]. rewrite Nat.sub_0_r, nth_error_app2, Nat.sub_diag by lia. reflexivity.
Qed.
(** No text is refused. *)
Theorem C67_always_loads {F : Num} {FOK : NumOK F} text : exists d, tsv_dataset (F:=F) text = Ok d /\ ds_rep (fst (tsv_tuples text)) None d.
Proof.
  unfold tsv_dataset, file_dataset. destruct (tsv_tuples text) as [ts [[]|]] eqn:E. cbn [fst]. destruct (build_allow (F:=F) None ts) as [(_ & d & -> & R)|(N & _)]; [eauto|].
  exfalso. apply N. intros c c' q _ _ H. unfold imp_val in H. destruct (_ && _)%bool; discriminate.
Qed.
Lemma claims_strict {S V W} {ES : Eqb S} {EV : Eqb V} {EW : Eqb W} (ts : list (S * V * W)) : NoDup (sv_pairs ts) -> claims ts = distinct (map t_claim ts).
Proof.
  intros ND. unfold claims. do 2 f_equal. assert (G : forall l, incl l ts -> filter (fun t => says ts (t_src t) (t_claim t)) l = l); [|apply G; intros t Ht; exact Ht].
  induction l as [|t l IH]; intros H; [reflexivity|]. cbn [filter]. assert (Q : says ts (t_src t) (t_claim t) = true).
  { unfold says. apply beq_true. apply (first_claim_NoDup ts _ _ _ ND). destruct t as [[s x] w]. apply H. now left. }
  rewrite Q, IH; [reflexivity|]. intros y Hy. apply H. now right.
Qed.
(** The newline matters: two sources making the same claim agree if the file ends in a newline, and disagree if it does not. *)
Theorem C67_final_newline_matters (s s' x v : pystr) : field s -> field s' -> field x -> field v -> s <> s' ->
  let text := tsv_line (s, x, [v]) ++ [newline] ++ tsv_line (s', x, [v]) in
  length (claims (fst (tsv_tuples (text ++ [newline])))) = 1 /\ length (claims (fst (tsv_tuples text))) = 2.
Proof.
  intros Hs Hs' Hx Hv N text. assert (Fs : forall r f, In r [(s, x, [v]); (s', x, [v])] -> In f (fields r) -> field f).
  { intros r f [<-|[<-|[]]] Hf; cbn [fields In] in Hf; repeat destruct Hf as [<-|Hf]; auto; destruct Hf. }
  pose proof (C67_reads [(s, x, [v]); (s', x, [v])] Fs) as Q1. pose proof (C67_unterminated [(s, x, [v])] (s', x, [v]) ltac:(intros r f Hr; apply Fs; destruct Hr as [<-|[<-|[]]]; cbn; auto)) as Q2.
  cbn [map concat] in Q1, Q2. rewrite app_nil_r, <- !app_assoc in Q1. rewrite app_nil_r, <- !app_assoc in Q2. unfold text. rewrite <- !app_assoc, Q1. rewrite Q2 by (cbn; destruct s'; discriminate). cbn [map fst with_newline removelast last app].
  assert (ND : forall (w w' : list pystr), NoDup (sv_pairs [(s, x, w); (s', x, w')])) by (intros w w'; cbn; constructor; [intros [Q|[]]; injection Q as Q; congruence|constructor; [intros []|constructor]]).
  rewrite !claims_strict by apply ND. cbn [map t_claim t_var t_val fst snd]. split.
  - match goal with |- length (distinct [?c; ?c']) = 1 => pose proof (distinct_snoc [c] c') as Q end. cbn [app] in Q. unfold t_claim, t_var, t_val in *. cbn [fst snd] in *. rewrite Q. replace (mem _ _) with true by (symmetry; apply mem_In; now left). reflexivity.
  - rewrite distinct_NoDup_id; [reflexivity|]. constructor; [|constructor; [intros []|constructor]]. intros [Q|[]]. injection Q as Q. apply (f_equal (@length _)) in Q. rewrite app_length in Q. cbn in Q. lia.
Qed.

(** * C68 *)
Section C68.
  Variable show_nat : nat -> pystr.
  Hypothesis show_inj : forall i j, show_nat i = show_nat j -> i = j.
  Notation name := (variable_name show_nat).

  (** ** cleaning *)
  Definition unwanted (c : pychar) : Prop := In c (lit_str "$%+-").
  Definition wanted (c : pychar) : bool := negb (mem c (lit_str "$%+-")).
  Lemma wanted_unwanted c : wanted c = false <-> unwanted c.
  Proof. unfold wanted, unwanted. rewrite negb_false_iff. apply mem_In. Qed.
  Lemma filter_filter {A} (p q : A -> bool) l : filter p (filter q l) = filter (fun x => (q x && p x)%bool) l.
  Proof. induction l as [|x l IH]; [reflexivity|]. cbn [filter]. destruct (q x); cbn [andb filter]; [destruct (p x); now rewrite IH|exact IH]. Qed.
  Lemma clean_filter v : clean_value v = strip (filter wanted v).
  Proof.
    unfold clean_value. f_equal. cbn [lit_str fold_left]. unfold remove_char. rewrite !filter_filter. apply filter_ext. intros c. unfold wanted, mem. cbn [lit_str existsb]. unfold beq. cbn [Eqb_N].
    repeat match goal with |- context [N.eqb ?a ?b] => destruct (N.eqb a b) end; reflexivity.
  Qed.
  Lemma strip_sub v c : In c (strip v) -> In c v.
  Proof. destruct (strip_decomp v) as (a & b & _ & _ & E & _). intros H. rewrite E. rewrite !in_app_iff. auto. Qed.
  (** no currency, percent or sign character and no white space around it is left; a value without any of these is kept as it is *)
  Theorem C68_clean v : (forall c, unwanted c -> ~ In c (clean_value v)) /\ no_edge_space (clean_value v) /\
    ((forall c, unwanted c -> ~ In c v) -> no_edge_space v -> clean_value v = v).
  Proof.
    rewrite clean_filter. split; [|split].
    - intros c Hc H. apply strip_sub, filter_In in H. apply wanted_unwanted in Hc. destruct H. congruence.
    - destruct (strip_decomp (filter wanted v)) as (a & b & _ & _ & _ & H). exact H.
    - intros Hn He. assert (Q : filter wanted v = v).
      { clear He. induction v as [|c v IH]; [reflexivity|]. cbn [filter]. destruct (wanted c) eqn:Wc; [f_equal; apply IH; intros c' Hc' Hin; apply (Hn c' Hc'); now right|]. exfalso. apply wanted_unwanted in Wc. apply (Hn c Wc). now left. }
      rewrite Q. pose proof (strip_unique [] v [] ltac:(intros ? []) ltac:(intros ? []) He) as U. rewrite app_nil_r in U. exact U.
  Qed.
  Theorem C68_clean_again v : clean_value (clean_value v) = clean_value v.
  Proof. destruct (C68_clean v) as (H1 & H2 & _). now apply C68_clean. Qed.
  (** signs are lost: a fall and a rise by the same amount are one value *)
  Theorem C68_sign_lost v : clean_value (lit_str "-" ++ v) = clean_value v /\ clean_value (lit_str "+" ++ v) = clean_value v.
  Proof. rewrite !clean_filter. split; reflexivity. Qed.

  (** ** names of variables *)
  Definition underscore : pychar := 95%N.
  Lemma cut_unique (c : pychar) a b a' b' : ~ In c a -> ~ In c a' -> a ++ c :: b = a' ++ c :: b' -> a = a' /\ b = b'.
  Proof.
    revert a'. induction a as [|x a IH]; intros [|y a'] H H' E; cbn in E.
    - injection E as E2. auto.
    - injection E as E1 E2. subst y. exfalso. apply H'. now left.
    - injection E as E1 E2. subst x. exfalso. apply H. now left.
    - injection E as E1 E2. subst y. destruct (IH a') as [-> ->]; [intros Q; apply H; now right|intros Q; apply H'; now right|exact E2|auto].
  Qed.
  (** different symbols, dates or columns have different names if symbols and dates contain no underscore *)
  Theorem C68_names symbol date i symbol' date' i' : ~ In underscore symbol -> ~ In underscore date -> ~ In underscore symbol' -> ~ In underscore date' ->
    name symbol date i = name symbol' date' i' -> symbol = symbol' /\ date = date' /\ i = i'.
  Proof.
    intros H1 H2 H1' H2' E. unfold variable_name in E. change (lit_str "_") with [underscore] in E. change (lit_str "_attr_") with (underscore :: lit_str "attr_") in E. cbn [app] in E.
    destruct (cut_unique underscore _ _ _ _ H1 H1' E) as [-> E']. destruct (cut_unique underscore _ _ _ _ H2 H2' E') as [-> E'']. apply app_inv_head in E''. auto.
  Qed.
  (** otherwise they can coincide *)
  Theorem C68_names_collide a b c i : name (a ++ lit_str "_" ++ b) c i = name a (b ++ lit_str "_" ++ c) i.
  Proof. unfold variable_name. now rewrite <- !app_assoc. Qed.

  (** ** rows *)
  (** the attributes of a row, with their column numbers *)
  Definition attribute (attrs : list pystr) (i : nat) (val : pystr) : Prop := exists attr, nth_error attrs i = Some attr /\ val = clean_value attr /\ val <> [].
  Lemma var_vals_In symbol attrs date x v : (exists l, var_vals show_nat (symbol :: attrs) date = Some l /\ (In (x, v) l <-> exists i, attribute attrs i v /\ x = name symbol date i)).
  Proof.
    cbn [var_vals]. eexists. split; [reflexivity|]. rewrite in_flat_map. split.
    - intros ((i & attr) & Hi & H). apply enum_from_In in Hi. destruct Hi as [_ Hi]. rewrite Nat.sub_0_r in Hi. exists i. destruct (clean_value attr) as [|c w] eqn:Ec; [destruct H|]. destruct H as [H|[]]. injection H as <- <-. split; [|reflexivity]. exists attr. rewrite Ec. repeat split; [exact Hi|discriminate].
    - intros (i & (attr & Hi & -> & Ne) & ->). exists (i, attr). split; [apply enum_from_In; rewrite Nat.sub_0_r; split; [lia|exact Hi]|]. destruct (clean_value attr); [congruence|]. now left.
  Qed.
  (** complete rows *)
  Definition long_rows (n : nat) (rows : list (list pystr)) : Prop := forall row, In row rows -> n <= length row.
  (** If every row has a date, a source and a symbol, exactly the non-empty cleaned attributes are claims, of the source of the row. *)
  Theorem C68_rows rows : long_rows 3 rows -> snd (stock_rows show_nat rows) = None /\
    forall s x v, In (s, x, v) (fst (stock_rows show_nat rows)) <-> exists date symbol attrs i, In (date :: s :: symbol :: attrs) rows /\ attribute attrs i v /\ x = name symbol date i.
  Proof.
    induction rows as [|row rows IH]; intros L; [split; [reflexivity|]; intros s x v; split; [intros []|intros (date & symbol & attrs & i & [] & _)]|].
    destruct (IH ltac:(intros r Hr; apply L; now right)) as [IH1 IH2]. pose proof (L row (or_introl eq_refl)) as Lr. destruct row as [|date [|source [|symbol attrs]]]; cbn in Lr; try lia.
    cbn [stock_rows]. pose proof (fun x v => var_vals_In symbol attrs date x v) as Vv. destruct (var_vals show_nat (symbol :: attrs) date) as [l|] eqn:El; [|destruct (Vv [] []) as (l & Q & _); discriminate].
    destruct (stock_rows show_nat rows) as [ts e]. cbn [fst snd] in *. split; [exact IH1|]. intros s x v. rewrite in_app_iff, IH2.
    assert (Q : In (s, x, v) (map (fun '(var, val) => (source, var, val)) l) <-> s = source /\ In (x, v) l).
    { rewrite in_map_iff. split; [intros ([var val] & Q & Hin); injection Q as <- <- <-; auto|intros [-> Hin]; exists (x, v); auto]. }
    rewrite Q. destruct (Vv x v) as (l' & Q' & Hl). injection Q' as <-. rewrite Hl. split.
    - intros [(-> & i & Ha & Ex)|(date' & symbol' & attrs' & i & Hin & Ha & Ex)]; [exists date, symbol, attrs, i; split; [now left|auto]|exists date', symbol', attrs', i; split; [now right|auto]].
    - intros (date' & symbol' & attrs' & i & [Hin|Hin] & Ha & Ex); [injection Hin as -> -> -> ->; left; eauto|right; exists date', symbol', attrs', i; auto].
  Qed.
  (** A shorter row (an empty line, for instance) makes loading fail. *)
  Theorem C68_short_row {F : Num} {FOK : NumOK F} reader text before row after : reader text = before ++ row :: after -> long_rows 3 before -> length row < 3 ->
    stock_dataset (F:=F) show_nat reader text = Err (OfReader UnpackError) \/ exists s x, stock_dataset (F:=F) show_nat reader text = Err (OfDataset (MultipleClaims s x)).
  Proof.
    intros E L Hr. assert (Q : exists ts, stock_tuples show_nat reader text = (ts, Some UnpackError)).
    { unfold stock_tuples. rewrite E. clear E. induction before as [|r0 before IH]; cbn [app stock_rows].
      - destruct row as [|d0 [|s0 [|y0 r]]]; cbn in *; try lia; eauto.
      - pose proof (L r0 (or_introl eq_refl)) as L0. destruct r0 as [|date [|source [|symbol attrs]]]; cbn in L0; try lia. cbn [var_vals].
        destruct (IH ltac:(intros r Hin; apply L; now right)) as [ts ->]. eauto. }
    destruct Q as [ts Q]. unfold stock_dataset. pose proof (C66_reader_fails (F:=F) (stock_tuples show_nat reader) false None text ts UnpackError Q) as R. cbn in R. cbn. destruct R as [[_ R]|(s & x & _ & R)]; [left; exact R|right; exists s, x; exact R].
  Qed.
  (** It succeeds exactly if every row is complete and no source has two values for a variable. *)
  Theorem C68_loads {F : Num} {FOK : NumOK F} reader text :
    (exists d, stock_dataset (F:=F) show_nat reader text = Ok d) <-> long_rows 3 (reader text) /\ NoDup (sv_pairs (fst (stock_tuples show_nat reader text))).
  Proof.
    assert (Dec : long_rows 3 (reader text) \/ exists before row after, reader text = before ++ row :: after /\ long_rows 3 before /\ length row < 3).
    { induction (reader text) as [|r rows IH]; [left; intros ? []|]. destruct (le_lt_dec 3 (length r)) as [H|H]; [|right; exists [], r, rows; split; [reflexivity|]; split; [intros ? []|exact H]].
      destruct IH as [IH|(bf & row & af & -> & H1 & H2)]; [left; intros r' [<-|Hr]; auto|right; exists (r :: bf), row, af; split; [reflexivity|]; split; [intros r' [<-|Hr]; auto|exact H2]]. }
    split.
    - intros [d Hd]. destruct Dec as [L|(bf & row & af & E & H1 & H2)].
      + split; [exact L|]. destruct (C68_rows _ L) as [Q _]. unfold stock_dataset, file_dataset in Hd. unfold stock_tuples in *. destruct (stock_rows show_nat (reader text)) as [ts e]. cbn [fst snd] in *. subst e.
        destruct (build_strict (F:=F) None ts) as [(ND & _)|[(ND & _)|(s & x & _ & Eb)]]; auto. rewrite Eb in Hd. discriminate.
      + destruct (C68_short_row (F:=F) reader text bf row af E H1 H2) as [Q|(s & x & Q)]; congruence.
    - intros [L ND]. destruct (C68_rows _ L) as [Q _]. unfold stock_dataset, file_dataset. unfold stock_tuples in *. destruct (stock_rows show_nat (reader text)) as [ts e]. cbn [fst snd] in *. subst e.
      destruct (build_strict (F:=F) None ts) as [(_ & _ & d & -> & _)|[(_ & N & _)|(s & x & H & _)]]; [eauto| |exfalso; exact (first_repeat_not_NoDup _ _ _ H ND)].
      exfalso. apply N. intros c c' q _ _ H. unfold imp_val in H. destruct (_ && _)%bool; discriminate.
  Qed.
  (** The true values: those of the last row that has one. *)
  Theorem C68_truth reader text : long_rows 2 (reader text) ->
    exists values pairs, stock_values show_nat reader text = Ok values /\ (forall x w, dget values x = Some w <-> last_pair pairs x w) /\
      forall x w, In (x, w) pairs <-> exists date symbol attrs i, In (date :: symbol :: attrs) (reader text) /\ attribute attrs i w /\ x = name symbol date i.
  Proof.
    intros L. assert (Q : snd (stock_truth show_nat (reader text)) = None /\ forall x v, In (x, v) (fst (stock_truth show_nat (reader text))) <-> exists date symbol attrs i, In (date :: symbol :: attrs) (reader text) /\ attribute attrs i v /\ x = name symbol date i).
    { induction (reader text) as [|row rows IH]; [split; [reflexivity|]; intros x v; split; [intros []|intros (date & symbol & attrs & i & [] & _)]|].
      destruct (IH ltac:(intros r Hr; apply L; now right)) as [IH1 IH2]. pose proof (L row (or_introl eq_refl)) as Lr. destruct row as [|date [|symbol attrs]]; cbn in Lr; try lia.
      cbn [stock_truth]. pose proof (fun x v => var_vals_In symbol attrs date x v) as Vv. destruct (var_vals show_nat (symbol :: attrs) date) as [l|] eqn:El; [|destruct (Vv [] []) as (l & Q & _); discriminate].
      destruct (stock_truth show_nat rows) as [ts e]. cbn [fst snd] in *. split; [exact IH1|]. intros x v. rewrite in_app_iff, IH2. destruct (Vv x v) as (l' & Q' & Hl). injection Q' as <-. rewrite Hl. split.
      - intros [(i & Ha & Ex)|(date' & symbol' & attrs' & i & Hin & Ha & Ex)]; [exists date, symbol, attrs, i; split; [now left|auto]|exists date', symbol', attrs', i; split; [now right|auto]].
      - intros (date' & symbol' & attrs' & i & [Hin|Hin] & Ha & Ex); [injection Hin as -> -> ->; left; eauto|right; exists date', symbol', attrs', i; auto]. }
    destruct Q as [Q1 Q2]. destruct (stock_truth show_nat (reader text)) as [ps e] eqn:Es. cbn [fst snd] in *. subst e.
    destruct (C66_values (S:=pystr) (fun t => stock_truth show_nat (reader t)) text ps Es) as (values & Ev & Hv & _). exists values, ps. auto.
  Qed.
  (** [row] gives the value [w] for [x] *)
  Definition row_says (row : list pystr) (x w : pystr) : Prop := exists date symbol attrs i, row = date :: symbol :: attrs /\ attribute attrs i w /\ x = name symbol date i.
  Lemma last_pair_app (a b : list (pystr * pystr)) x w : last_pair (a ++ b) x w <-> last_pair b x w \/ (last_pair a x w /\ ~ In x (map fst b)).
  Proof.
    split.
    - intros (bf & af & Q & N). revert bf Q. induction a as [|p a IH]; intros bf Q; cbn in Q; [left; exists bf, af; auto|]. destruct bf as [|p' bf]; cbn in Q; injection Q as -> Q.
      + subst af. rewrite map_app, in_app_iff in N. right. split; [exists [], a; split; [reflexivity|tauto]|tauto].
      + destruct (IH bf Q) as [H|[(bf' & af' & -> & N') H]]; [now left|]. right. split; [exists (p' :: bf'), af'; auto|exact H].
    - intros [(bf & af & -> & N)|[(bf & af & -> & N) H]]; [exists (a ++ bf), af; rewrite app_assoc; auto|]. exists bf, (af ++ b). rewrite <- app_assoc. split; [reflexivity|]. rewrite map_app, in_app_iff. tauto.
  Qed.
  (** The value of a variable is the one in the last row that gives one. *)
  Theorem C68_last_row reader text values : long_rows 2 (reader text) -> stock_values show_nat reader text = Ok values ->
    forall x w, dget values x = Some w <-> exists before row after, reader text = before ++ row :: after /\ row_says row x w /\ forall row' w', In row' after -> ~ row_says row' x w'.
  Proof.
    intros L Ev x w. assert (G : snd (stock_truth show_nat (reader text)) = None /\
      (forall x, In x (map fst (fst (stock_truth show_nat (reader text)))) <-> exists row w, In row (reader text) /\ row_says row x w) /\
      (last_pair (fst (stock_truth show_nat (reader text))) x w <-> exists before row after, reader text = before ++ row :: after /\ row_says row x w /\ forall row' w', In row' after -> ~ row_says row' x w')).
    { clear Ev values. induction (reader text) as [|row rows IH]; [split; [reflexivity|]; split; [intros y; split; [intros []|intros (r & v & [] & _)]|split; [intros (bf & af & Q & _); destruct bf; discriminate|intros (bf & r & af & Q & _); destruct bf; discriminate]]|].
      destruct (IH ltac:(intros r Hr; apply L; now right)) as (IH1 & IH2 & IH3). pose proof (L row (or_introl eq_refl)) as Lr. destruct row as [|date [|symbol attrs]]; cbn in Lr; try lia.
      cbn [stock_truth]. pose proof (fun x v => var_vals_In symbol attrs date x v) as Vv. destruct (var_vals show_nat (symbol :: attrs) date) as [l|] eqn:El; [|destruct (Vv [] []) as (l & Q & _); discriminate].
      assert (Hl : forall y v, In (y, v) l <-> row_says (date :: symbol :: attrs) y v).
      { intros y v. destruct (Vv y v) as (l' & Q' & Hl). injection Q' as <-. rewrite Hl. split; [intros (i & Ha & Ey); exists date, symbol, attrs, i; auto|intros (d' & s' & a' & i & Q & Ha & Ey); injection Q as <- <- <-; eauto]. }
      assert (Fun : forall y v v', row_says (date :: symbol :: attrs) y v -> row_says (date :: symbol :: attrs) y v' -> v = v').
      { intros y v v' (d1 & s1 & a1 & i1 & Q1 & (t1 & Ht1 & -> & _) & E1) (d2 & s2 & a2 & i2 & Q2 & (t2 & Ht2 & -> & _) & E2). injection Q1 as <- <- <-. injection Q2 as <- <- <-. rewrite E1 in E2. unfold variable_name in E2. repeat apply app_inv_head in E2. apply show_inj in E2. subst i2. congruence. }
      destruct (stock_truth show_nat rows) as [ts e]. cbn [fst snd] in *. split; [exact IH1|]. split.
      - intros y. rewrite map_app, in_app_iff, IH2, in_map_iff. split.
        + intros [([y' v] & <- & H)|(r & v & Hr & H)]; [exists (date :: symbol :: attrs), v; split; [now left|now apply Hl]|exists r, v; split; [now right|exact H]].
        + intros (r & v & [<-|Hr] & H); [left; exists (y, v); split; [reflexivity|now apply Hl]|right; eauto].
      - rewrite last_pair_app, IH3, IH2. split.
        + intros [(bf & r & af & -> & H)|[(bf & af & Eq & _) N]]; [exists ((date :: symbol :: attrs) :: bf), r, af; split; [reflexivity|exact H]|].
          exists [], (date :: symbol :: attrs), rows. split; [reflexivity|]. split; [apply Hl; rewrite Eq; apply in_app_iff; right; now left|]. intros r v Hr H. apply N. eauto.
        + intros (bf & r & af & Q & H1 & H2). destruct bf as [|r0 bf]; cbn in Q; injection Q as <- Q.
          * subst af. right. split; [|intros (r & v & Hr & H); exact (H2 r v Hr H)]. apply Hl in H1. revert H1 Hl Fun. clear. intros H1 Hl Fun.
            assert (K : forall l' : list (pystr * pystr), incl l' l -> In (x, w) l' -> last_pair l' x w).
            { induction l' as [|p l' IH] using rev_ind; [intros _ []|]. intros Hi Hin. destruct p as [y v]. apply last_pair_app. destruct (beq_spec x y) as [->|N].
              - left. exists [], []. split; [|intros []]. assert (v = w) as ->; [|reflexivity]. apply (Fun y); apply Hl; [apply Hi, in_app_iff; right; now left|apply Hi, Hin].
              - right. split; [apply IH; [intros q Hq; apply Hi, in_app_iff; now left|]|intros [Q|[]]; cbn in Q; congruence]. apply in_app_iff in Hin. destruct Hin as [Hin|[Q|[]]]; [exact Hin|congruence]. }
            apply K; [intros q Hq; exact Hq|exact H1].
          * left. exists bf, r, af. auto. }
    destruct G as (G1 & _ & G3). destruct (stock_truth show_nat (reader text)) as [ps e] eqn:Es. cbn [fst snd] in *. subst e.
    destruct (C66_values (S:=pystr) (fun t => stock_truth show_nat (reader t)) text ps Es) as (values' & Ev' & Hv & _). unfold stock_values in Ev. rewrite Ev' in Ev. injection Ev as ->. rewrite Hv. exact G3.
  Qed.
End C68.

(** ** Non-vacuity *)
Module FileExamples.
  Definition line1 : pystr := lit_str "s1" ++ [tab] ++ lit_str "x" ++ [tab] ++ lit_str "5".
  Definition line2 : pystr := lit_str "s2" ++ [tab] ++ lit_str "x" ++ [tab] ++ lit_str "5".
  (* the second line is malformed; the third has no newline at its end *)
  Definition text : pystr := line1 ++ [newline] ++ lit_str "oops" ++ [newline] ++ line2.
  Example read : tsv_tuples text = ([(lit_str "s1", lit_str "x", [lit_str "5" ++ [newline]]); (lit_str "s2", lit_str "x", [lit_str "5"])], None) /\ tsv_messages text = [1].
  Proof. vm_compute. split; reflexivity. Qed.
  Example is_field : field (lit_str "s1") /\ field (lit_str "5").
  Proof. split; split; vm_compute; intuition discriminate. Qed.
  Definition rows : list (list pystr) := map (map lit_str) [["2011-07-01"; "src"; "aapl"; "$343.26"; "+2.26%"; " "]; ["2011-07-01"; "src2"; "aapl"; "343.26"; "-2.26%"]]%string.
  Example long : long_rows 3 rows. Proof. intros r [<-|[<-|[]]]; cbn; lia. Qed.
  Example tuples : map snd (fst (stock_rows (fun n => repeat 49%N n) rows)) = map lit_str ["343.26"; "2.26"; "343.26"; "2.26"]%string.
  Proof. vm_compute. reflexivity. Qed.
  Example agree : length (claims (fst (stock_rows (fun n => repeat 49%N n) rows))) = 2.
  Proof. vm_compute. reflexivity. Qed.
  Example show_inj : forall i j, repeat 49%N i = repeat 49%N j -> i = j.
  Proof. intros i j H. apply (f_equal (@length _)) in H. now rewrite !repeat_length in H. Qed.
End FileExamples.
