(** C81: options of the run command.  C82: options of the synth and graph commands, and the files the graph command changes. *)
From Coq Require Import NArith String Permutation Reals Lra.
From Verif Require Import Base Num Sparse Spec Dataset DatasetProofs DatasetRep Iterators Algorithms Driver Rounds Results PropsResult PyStr Regex Matrix Supervised Client PropsClient Graph GraphRep PropsRun PropsOutput PropsData PropsMatrix PropsSynth PropsGraph PropsLayout Front FrontRep Png PropsPng Args.
From Verif Require Import PropsCli.

(** * Specification *)
(** [v] is what the last of the options [os] that [sel] selects holds *)
Definition last_given {O A} (sel : O -> option A) (os : list O) (v : A) : Prop :=
  exists before o after, os = before ++ o :: after /\ sel o = Some v /\ forall o', In o' after -> sel o' = None.
Definition not_given {O A} (sel : O -> option A) (os : list O) : Prop := forall o, In o os -> sel o = None.
(** [x] is the converted value of the last such option, if there is any *)
Definition holds {O R A} (sel : O -> option R) (conv : R -> A -> Prop) (os : list O) (x : option A) : Prop :=
  match x with
  | Some a => exists r, last_given sel os r /\ conv r a
  | None => not_given sel os
  end.
Definition each {R A} (conv : R -> A -> Prop) (l : list R) (m : list A) : Prop := l <> [] /\ Forall2 conv l m.

Definition field_names : list (pystr * field) :=
  [(lit_str "accuracy", FAccuracy); (lit_str "belief", FBelief); (lit_str "belief_stats", FBeliefStats); (lit_str "iterations", FIterations);
   (lit_str "most_believed_values", FMostBelieved); (lit_str "time", FTime); (lit_str "trust", FTrust); (lit_str "trust_stats", FTrustStats)].
Lemma field_of_names s f : field_of s = Some f <-> In (s, f) field_names.
Proof.
  split; [intros H; exact (dget_In _ _ _ H)|]. intros H. unfold field_names in H. cbn [In] in H. repeat destruct H as [H|H]; try contradiction; injection H as <- <-; reflexivity.
Qed.

Definition o_algorithm (o : run_option) := match o with RAlgorithm l => Some l | _ => None end.
Definition o_params (o : run_option) := match o with RParams l => Some l | _ => None end.
Definition o_dataset (o : run_option) := match o with RDataset p => Some p | _ => None end.
Definition o_sources (o : run_option) := match o with RSources l => Some l | _ => None end.
Definition o_variables (o : run_option) := match o with RVariables l => Some l | _ => None end.
Definition o_output (o : run_option) := match o with ROutput l => Some l | _ => None end.

(** ** Lemmas about options *)
Lemma holds_hit {O R A} (sel : O -> option R) (conv : R -> A -> Prop) pre o r a : sel o = Some r -> conv r a -> holds sel conv (pre ++ [o]) (Some a).
Proof. intros H1 H2. exists r. split; [|exact H2]. exists pre, o, []. split; [reflexivity|]. split; [exact H1|intros o' []]. Qed.
Lemma holds_miss {O R A} (sel : O -> option R) (conv : R -> A -> Prop) pre o x : sel o = None -> holds sel conv pre x -> holds sel conv (pre ++ [o]) x.
Proof.
  intros H Hx. destruct x as [a|].
  - destruct Hx as (r & (b & o0 & aft & -> & Hs & Ha) & Hc). exists r. split; [|exact Hc]. exists b, o0, (aft ++ [o]). split; [now rewrite <- app_assoc|]. split; [exact Hs|].
    intros o' Ho. apply in_app_or in Ho. destruct Ho as [Ho|[<-|[]]]; auto.
  - intros o' Ho. apply in_app_or in Ho. destruct Ho as [Ho|[<-|[]]]; auto.
Qed.
Lemma holds_nil {O R A} (sel : O -> option R) (conv : R -> A -> Prop) : holds sel conv [] None.
Proof. intros o []. Qed.
Lemma not_holds {O R A} (sel : O -> option R) (conv : R -> A -> Prop) os a : holds sel conv os (Some a) -> not_given sel os -> False.
Proof. intros (r & (b & o & aft & -> & Hs & _) & _) N. specialize (N o). rewrite N in Hs; [discriminate|]. apply in_or_app. right. now left. Qed.
Lemma last_given_fun {O A} (sel : O -> option A) os u v : last_given sel os u -> last_given sel os v -> u = v.
Proof.
  intros (b1 & o1 & a1 & -> & S1 & N1) (b2 & o2 & a2 & E & S2 & N2). revert b2 E. induction b1 as [|x b1 IH]; intros [|y b2] E; cbn in E.
  - injection E as <- _. congruence.
  - injection E as <- ->. rewrite N1 in S2; [discriminate|]. apply in_or_app. right. now left.
  - injection E as -> <-. rewrite N2 in S1; [discriminate|]. apply in_or_app. right. now left.
  - injection E as _ E. exact (IH b2 E).
Qed.
Lemma given_or_not {O A} (sel : O -> option A) os : (exists v, last_given sel os v) \/ not_given sel os.
Proof.
  induction os as [|o os [(v & b & o' & a & -> & S & N)|IH]]; [right; intros o []| |].
  - left. exists v, (o :: b), o', a. auto.
  - destruct (sel o) as [v|] eqn:E; [left; exists v, [], o, os; auto|]. right. intros o' [<-|H]; auto.
Qed.
Lemma mapM_all {A B E} (f : A -> res E B) (P : A -> B -> Prop) l : (forall a b, f a = Ok b <-> P a b) -> (forall a, In a l -> exists b, P a b) -> exists m, mapM f l = Ok m /\ Forall2 P l m.
Proof.
  intros Hf. induction l as [|a l IH]; intros H; [exists []; split; [reflexivity|constructor]|]. destruct (H a (or_introl eq_refl)) as [b Hb]. destruct IH as (m & Em & Hm); [intros a' Ha; apply H; now right|].
  exists (b :: m). split; [|now constructor]. apply Hf in Hb. cbn [mapM]. now rewrite Hb, Em.
Qed.
Lemma mapM_refused {A B E} (f : A -> res E B) e l : (forall a, (exists b, f a = Ok b) \/ f a = Err e) -> (exists a, In a l /\ f a = Err e) -> mapM f l = Err e.
Proof.
  intros Hf. induction l as [|a l IH]; [intros (a & [] & _)|]. intros (a0 & [<-|Hin] & Ha); cbn [mapM]; [now rewrite Ha|]. destruct (Hf a) as [[b ->]| ->]; [|reflexivity]. cbn [bind]. rewrite IH; [reflexivity|eauto].
Qed.
Lemma one_or_more_spec {A} (conv : pystr -> res failure A) (P : pystr -> A -> Prop) l :
  (forall s, (exists a, conv s = Ok a) \/ conv s = Err Refused) -> (forall s a, conv s = Ok a <-> P s a) ->
  (l <> [] -> (forall s, In s l -> exists a, P s a) -> exists m, one_or_more conv l = Ok m /\ each P l m) /\
  (~ (l <> [] /\ forall s, In s l -> exists a, P s a) -> one_or_more conv l = Err Refused).
Proof.
  intros H1 H2. split.
  - intros NE H. destruct (mapM_all conv P l H2 H) as (m & E & Hm). exists m. split; [destruct l; [contradiction|exact E]|split; assumption].
  - intros H. destruct l as [|s l]; [reflexivity|]. unfold one_or_more. apply mapM_refused; [exact H1|].
    assert (G : forall l', (exists s, In s l' /\ conv s = Err Refused) \/ forall s, In s l' -> exists a, P s a).
    { clear - H1 H2. induction l' as [|s l' [(s0 & Hs & E)|IH]]; [right; intros s []|left; exists s0; split; [now right|exact E]|]. destruct (H1 s) as [[a Ha]|Ha].
      - right. intros s0 [<-|Hs]; [exists a; now apply H2|auto].
      - left. exists s. split; [now left|exact Ha]. }
    destruct (G (s :: l)) as [Q|Q]; [exact Q|]. exfalso. apply H. split; [discriminate|exact Q].
Qed.

Section RunOptions.
  Context {C W : Type} {EW : Eqb W} {F : Num} {FOK : NumOK F}.
  Variable parse : pystr -> option (option C).
  Variable label : C -> W.
  Variable ord : list pystr -> list pystr.
  Hypothesis Ord : forall l, Permutation l (ord l).
  Variable ltw : W -> W -> bool.
  Variable rnd : nat -> nat.
  Hypothesis irrefl : forall x : F, n_ltb x x = false.
  Variable pfloat : pystr -> option F.
  Variable decimal : pychar -> option N.
  Hypothesis DEC : decimal_ok decimal.
  Variable pint : pystr -> option Z.

  (** a parameter string and the parameter it gives (C44) *)
  Definition parameter_spec (s : pystr) (kv : pystr * pvalue F) : Prop :=
    exists a b, s = a ++ equals_sign :: b /\ ~ In equals_sign a /\ fst kv = strip a /\ value_spec pfloat decimal (strip a) (strip b) (snd kv).
  Definition all_good {A} (P : pystr -> A -> Prop) (l : list pystr) : Prop := l <> [] /\ forall s, In s l -> exists a, P s a.
  (** the values of an option are good *)
  Definition acceptable (fs : files) (o : run_option) : Prop :=
    match o with
    | RAlgorithm l => all_good (fun s c => In (s, c) label_table) l
    | RParams l => all_good parameter_spec l
    | RDataset path => exists text, fs path = Some text
    | RSupervised => True
    | RSources l | RVariables l => all_good (fun s z => pint s = Some z) l
    | ROutput l => all_good (fun s f => In (s, f) field_names) l
    end.
  (** the arguments that stand for the options: each time the last one counts, with the defaults for those that are not given *)
  Definition arguments (fs : files) (os : list run_option) (args : run_args (F:=F)) : Prop :=
    holds o_algorithm (each (fun s c => In (s, c) label_table)) os (Some (ra_classes args)) /\
    holds o_params (each parameter_spec) os (ra_params args) /\
    holds o_dataset (fun path text => fs path = Some text) os (Some (ra_text args)) /\
    (ra_supervised args = true <-> In RSupervised os) /\
    holds o_sources (each (fun s z => pint s = Some z)) os (ra_sources args) /\
    holds o_variables (each (fun s z => pint s = Some z)) os (ra_variables args) /\
    (holds o_output (each (fun s f => In (s, f) field_names)) os (Some (ra_fields args)) \/ not_given o_output os /\ ra_fields args = [FTrust; FBelief; FIterations; FTime]).

  (** ** Proofs *)
  Definition represents (fs : files) (os : list run_option) (ns : run_space (F:=F)) : Prop :=
    holds o_algorithm (each (fun s c => In (s, c) label_table)) os (rs_alg_classes ns) /\
    holds o_params (each parameter_spec) os (rs_alg_params ns) /\
    holds o_dataset (fun path text => fs path = Some text) os (rs_dataset ns) /\
    (rs_supervised ns = true <-> In RSupervised os) /\
    holds o_sources (each (fun s z => pint s = Some z)) os (rs_sources ns) /\
    holds o_variables (each (fun s z => pint s = Some z)) os (rs_variables ns) /\
    (holds o_output (each (fun s f => In (s, f) field_names)) os (Some (rs_output_fields ns)) \/ not_given o_output os /\ rs_output_fields ns = [FTrust; FBelief; FIterations; FTime]).
  Lemma conv_cls s : (exists a, argparse_type (algorithm_cls s) = Ok a) \/ argparse_type (algorithm_cls s) = Err Refused.
  Proof. unfold algorithm_cls. destruct (dget alg_labels s); cbn; [left; eauto|now right]. Qed.
  Lemma conv_cls_spec s c : argparse_type (algorithm_cls s) = Ok c <-> In (s, c) label_table.
  Proof. rewrite <- (proj1 (C47_labels s c)). unfold algorithm_cls. destruct (dget alg_labels s); cbn; split; congruence. Qed.
  Lemma conv_param s : (exists a, argparse_type (algorithm_parameter pfloat decimal s) = Ok a) \/ argparse_type (algorithm_parameter pfloat decimal s) = Err Refused.
  Proof.
    destruct (algorithm_parameter pfloat decimal s) as [a|e] eqn:E; [left; cbn; eauto|]. right. pose proof (C44_refuses pfloat decimal DEC s e E) as V. destruct e; cbn in *; try contradiction; reflexivity.
  Qed.
  Lemma conv_param_spec s kv : argparse_type (algorithm_parameter pfloat decimal s) = Ok kv <-> parameter_spec s kv.
  Proof.
    destruct kv as [k v]. unfold parameter_spec. cbn [fst snd]. rewrite <- (C44_accepts_iff pfloat decimal DEC s k v). destruct (algorithm_parameter pfloat decimal s) as [a|e]; cbn; [split; congruence|]. destruct e; cbn; split; discriminate.
  Qed.
  Lemma conv_plain {A} (f : pystr -> option A) s : (exists a, plain (f s) = Ok a) \/ plain (f s) = Err Refused.
  Proof. destruct (f s); cbn; [left; eauto|now right]. Qed.
  Lemma conv_plain_spec {A} (f : pystr -> option A) s a : plain (f s) = Ok a <-> f s = Some a.
  Proof. destruct (f s); cbn; split; congruence. Qed.
  Lemma conv_field_spec s f : plain (field_of s) = Ok f <-> In (s, f) field_names.
  Proof. rewrite conv_plain_spec. apply field_of_names. Qed.

  Lemma take_step fs os ns o : represents fs os ns ->
    (acceptable fs o -> exists ns', run_take pfloat decimal pint fs ns o = Ok ns' /\ represents fs (os ++ [o]) ns') /\
    (~ acceptable fs o -> run_take pfloat decimal pint fs ns o = Err Refused).
  Proof.
    destruct ns as [a p d s so va f]. unfold represents. cbn [rs_alg_classes rs_alg_params rs_dataset rs_supervised rs_sources rs_variables rs_output_fields].
    intros (Ra & Rp & Rd & Rs & Rso & Rva & Rf).
    assert (Sup : o <> RSupervised -> (s = true <-> In RSupervised (os ++ [o]))).
    { intros N. rewrite Rs. rewrite in_app_iff. cbn. split; [auto|]. intros [H|[H|[]]]; [exact H|now destruct N]. }
    assert (Out : o_output o = None -> (holds o_output (each (fun s f => In (s, f) field_names)) (os ++ [o]) (Some f) \/ not_given o_output (os ++ [o]) /\ f = [FTrust; FBelief; FIterations; FTime])).
    { intros N. destruct Rf as [Rf|[Rf Ef]]; [left; now apply holds_miss|right]. split; [|exact Ef]. intros o' Ho. apply in_app_or in Ho. destruct Ho as [Ho|[<-|[]]]; auto. }
    destruct o as [l|l|path| |l|l|l]; cbn [run_take acceptable].
    - destruct (one_or_more_spec (fun x => argparse_type (algorithm_cls x)) (fun s c => In (s, c) label_table) l conv_cls conv_cls_spec) as [G1 G2]. split.
      + intros [NE H]. destruct (G1 NE H) as (m & -> & Hm). cbn [bind]. eexists. split; [reflexivity|]. cbn [rs_alg_classes rs_alg_params rs_dataset rs_supervised rs_sources rs_variables rs_output_fields].
        split; [now apply (holds_hit o_algorithm _ os _ l)|]. repeat (split; [first [now apply holds_miss|apply Sup; discriminate]|]). now apply Out.
      + intros H. now rewrite (G2 H).
    - destruct (one_or_more_spec (fun x => argparse_type (algorithm_parameter pfloat decimal x)) parameter_spec l conv_param conv_param_spec) as [G1 G2]. split.
      + intros [NE H]. destruct (G1 NE H) as (m & -> & Hm). cbn [bind]. eexists. split; [reflexivity|]. cbn [rs_alg_classes rs_alg_params rs_dataset rs_supervised rs_sources rs_variables rs_output_fields].
        split; [now apply holds_miss|]. split; [now apply (holds_hit o_params _ os _ l)|]. repeat (split; [first [now apply holds_miss|apply Sup; discriminate]|]). now apply Out.
      + intros H. now rewrite (G2 H).
    - split.
      + intros [text Ht]. rewrite Ht. cbn [plain bind]. eexists. split; [reflexivity|]. cbn [rs_alg_classes rs_alg_params rs_dataset rs_supervised rs_sources rs_variables rs_output_fields].
        do 2 (split; [now apply holds_miss|]). split; [now apply (holds_hit o_dataset _ os _ path)|]. repeat (split; [first [now apply holds_miss|apply Sup; discriminate]|]). now apply Out.
      + intros H. destruct (fs path) as [t|]; [exfalso; apply H; eauto|reflexivity].
    - split; [intros _|intros H; now destruct H]. eexists. split; [reflexivity|]. cbn [rs_alg_classes rs_alg_params rs_dataset rs_supervised rs_sources rs_variables rs_output_fields].
      do 3 (split; [now apply holds_miss|]). split; [split; [intros _; apply in_or_app; right; now left|reflexivity]|]. do 2 (split; [now apply holds_miss|]). now apply Out.
    - destruct (one_or_more_spec (fun x => plain (pint x)) (fun s z => pint s = Some z) l (conv_plain pint) (conv_plain_spec pint)) as [G1 G2]. split.
      + intros [NE H]. destruct (G1 NE H) as (m & -> & Hm). cbn [bind]. eexists. split; [reflexivity|]. cbn [rs_alg_classes rs_alg_params rs_dataset rs_supervised rs_sources rs_variables rs_output_fields].
        do 3 (split; [now apply holds_miss|]). split; [apply Sup; discriminate|]. split; [now apply (holds_hit o_sources _ os _ l)|]. split; [now apply holds_miss|]. now apply Out.
      + intros H. now rewrite (G2 H).
    - destruct (one_or_more_spec (fun x => plain (pint x)) (fun s z => pint s = Some z) l (conv_plain pint) (conv_plain_spec pint)) as [G1 G2]. split.
      + intros [NE H]. destruct (G1 NE H) as (m & -> & Hm). cbn [bind]. eexists. split; [reflexivity|]. cbn [rs_alg_classes rs_alg_params rs_dataset rs_supervised rs_sources rs_variables rs_output_fields].
        do 3 (split; [now apply holds_miss|]). split; [apply Sup; discriminate|]. split; [now apply holds_miss|]. split; [now apply (holds_hit o_variables _ os _ l)|]. now apply Out.
      + intros H. now rewrite (G2 H).
    - destruct (one_or_more_spec (fun x => plain (field_of x)) (fun s f => In (s, f) field_names) l (conv_plain field_of) conv_field_spec) as [G1 G2]. split.
      + intros [NE H]. destruct (G1 NE H) as (m & -> & Hm). cbn [bind]. eexists. split; [reflexivity|]. cbn [rs_alg_classes rs_alg_params rs_dataset rs_supervised rs_sources rs_variables rs_output_fields].
        do 3 (split; [now apply holds_miss|]). split; [apply Sup; discriminate|]. do 2 (split; [now apply holds_miss|]). left. now apply (holds_hit o_output _ os _ l).
      + intros H. now rewrite (G2 H).
  Qed.
  Lemma take_all_ok fs os : forall pre ns, represents fs pre ns -> (forall o, In o os -> acceptable fs o) ->
    exists ns', take_all (run_take pfloat decimal pint fs) ns os = Ok ns' /\ represents fs (pre ++ os) ns'.
  Proof.
    induction os as [|o os IH]; intros pre ns R H; cbn [take_all]; [exists ns; rewrite app_nil_r; auto|].
    destruct (proj1 (take_step fs pre ns o R) (H o (or_introl eq_refl))) as (ns1 & -> & R1). cbn [bind]. destruct (IH (pre ++ [o]) ns1 R1) as (ns' & E & R'); [intros o' Ho; apply H; now right|].
    exists ns'. split; [exact E|]. now rewrite <- app_assoc in R'.
  Qed.
  Lemma take_all_refused fs os : forall pre ns, represents fs pre ns -> (exists o, In o os /\ ~ acceptable fs o) -> (forall o, acceptable fs o \/ ~ acceptable fs o) ->
    take_all (run_take pfloat decimal pint fs) ns os = Err Refused.
  Proof.
    induction os as [|o os IH]; intros pre ns R (o0 & Hin & Ho) D; [destruct Hin|]. cbn [take_all]. destruct (take_step fs pre ns o R) as [G1 G2]. destruct (D o) as [A|A]; [|now rewrite (G2 A)].
    destruct (G1 A) as (ns1 & -> & R1). cbn [bind]. apply (IH (pre ++ [o]) ns1 R1); [|exact D]. exists o0. split; [|exact Ho]. destruct Hin as [<-|Hin]; [contradiction|exact Hin].
  Qed.
  Lemma all_good_dec {A} (conv : pystr -> res failure A) (P : pystr -> A -> Prop) l : (forall s, (exists a, conv s = Ok a) \/ conv s = Err Refused) -> (forall s a, conv s = Ok a <-> P s a) -> all_good P l \/ ~ all_good P l.
  Proof.
    intros H1 H2. destruct l as [|s0 l0]; [right; intros [N _]; now apply N|]. set (l := s0 :: l0).
    assert (G : (forall s, In s l -> exists a, P s a) \/ exists s, In s l /\ conv s = Err Refused).
    { induction l as [|s l [IH|(s1 & Hs & E)]]; [left; intros s []| |right; exists s1; split; [now right|exact E]]. destruct (H1 s) as [[a Ha]|Ha]; [left|right; exists s; split; [now left|exact Ha]].
      intros s1 [<-|Hs]; [exists a; now apply H2|auto]. }
    destruct G as [G|(s & Hs & E)]; [left; split; [discriminate|exact G]|]. right. intros [_ G]. destruct (G s Hs) as [a Ha]. apply H2 in Ha. congruence.
  Qed.
  Lemma acceptable_dec fs o : acceptable fs o \/ ~ acceptable fs o.
  Proof.
    destruct o as [l|l|path| |l|l|l]; cbn [acceptable].
    - exact (all_good_dec _ _ l conv_cls conv_cls_spec).
    - exact (all_good_dec _ _ l conv_param conv_param_spec).
    - destruct (fs path) as [t|]; [left; eauto|right; intros [t Ht]; discriminate].
    - now left.
    - exact (all_good_dec _ _ l (conv_plain pint) (conv_plain_spec pint)).
    - exact (all_good_dec _ _ l (conv_plain pint) (conv_plain_spec pint)).
    - exact (all_good_dec _ _ l (conv_plain field_of) conv_field_spec).
  Qed.
  Lemma represents0 fs : represents fs [] (run_space0 (F:=F)).
  Proof.
    unfold represents, run_space0. cbn [rs_alg_classes rs_alg_params rs_dataset rs_supervised rs_sources rs_variables rs_output_fields].
    repeat (split; [first [apply holds_nil|split; [discriminate|intros []]]|]). right. split; [intros o []|reflexivity].
  Qed.
  Lemma each_params strs (l : list (pystr * pvalue F)) : Forall2 parameter_spec strs l -> Forall2 (fun s it => algorithm_parameter pfloat decimal s = Ok it) strs l.
  Proof. intros H. induction H as [|s [k v] strs l H1 H2 IH]; [constructor|]. constructor; [|exact IH]. now apply (C44_accepts_iff pfloat decimal DEC). Qed.

  Notation cli_run := (cli_run parse label pfloat decimal ord ltw rnd pint).
  Notation run_algorithm := (run_algorithm parse label ord ltw rnd).

  (** ** C81 *)
  (** some value is not good, or a required option is missing: a usage error, and nothing else happens *)
  Theorem C81_refused clocks fuel fs os :
    (exists o, In o os /\ ~ acceptable fs o) \/ not_given o_algorithm os \/ not_given o_dataset os ->
    cli_run clocks fuel fs os = ([], UsageError).
  Proof.
    intros H. unfold Args.cli_run, run_parse.
    assert (D : (exists o, In o os /\ ~ acceptable fs o) \/ forall o, In o os -> acceptable fs o).
    { clear H. induction os as [|o os [(o1 & Hin & Ho)|IH]]; [right; intros o []|left; exists o1; split; [now right|exact Ho]|]. destruct (acceptable_dec fs o) as [A|A]; [right; intros o1 [<-|Hin]; auto|left; exists o; split; [now left|exact A]]. }
    destruct D as [D|D]; [now rewrite (take_all_refused fs os [] _ (represents0 fs) D (acceptable_dec fs))|].
    destruct H as [(o & Hin & Ho)|H]; [exfalso; exact (Ho (D o Hin))|].
    destruct (take_all_ok fs os [] _ (represents0 fs) D) as (ns & -> & R). cbn [bind app] in *. destruct R as (Ra & _ & Rd & _).
    destruct (rs_alg_classes ns) as [cs|] eqn:Ec; [|reflexivity]. destruct (rs_dataset ns) as [t|] eqn:Ed; [|reflexivity]. exfalso. destruct H as [H|H]; [exact (not_holds _ _ _ _ Ra H)|exact (not_holds _ _ _ _ Rd H)].
  Qed.
  (** otherwise the command runs with the arguments that the options stand for; they are proper in the sense of C49 *)
  Theorem C81_accepted clocks fuel fs os :
    (forall o, In o os -> acceptable fs o) -> ~ not_given o_algorithm os -> ~ not_given o_dataset os ->
    exists args, arguments fs os args /\ proper_args pfloat decimal args /\ cli_run clocks fuel fs os = run_algorithm clocks fuel args.
  Proof.
    intros H Ha Hd. unfold Args.cli_run, run_parse. destruct (take_all_ok fs os [] _ (represents0 fs) H) as (ns & -> & R). cbn [bind app] in *. unfold represents in R. destruct R as (Ra & Rp & Rd & Rs & Rso & Rva & Rf).
    destruct (rs_alg_classes ns) as [cs|]; [|contradiction]. destruct (rs_dataset ns) as [t|]; [|contradiction]. eexists. split; [|split; [|reflexivity]].
    - unfold arguments. cbn [ra_classes ra_params ra_text ra_supervised ra_sources ra_variables ra_fields]. exact (conj Ra (conj Rp (conj Rd (conj Rs (conj Rso (conj Rva Rf)))))).
    - unfold proper_args. cbn [ra_classes ra_params ra_fields]. split; [|split].
      + intros c Hc. destruct Ra as (ls & _ & _ & H2). clear -H2 Hc. induction H2 as [|l c' ls cs H1 H2 IH]; [destruct Hc|]. destruct Hc as [<-|Hc]; [exists l; exact H1|auto].
      + destruct Rf as [(ls & _ & NE & H2)|[_ ->]]; [|discriminate]. intros E. rewrite E in H2. inversion H2. subst. now apply NE.
      + destruct (rs_alg_params ns) as [l|]; [|exists []; constructor]. destruct Rp as (strs & _ & _ & H2). exists strs. now apply each_params.
  Qed.
  (** the two together: exactly when the command ends in a usage error *)
  Definition accuracy_unsupervised (os : list run_option) : Prop := ~ In RSupervised os /\ exists l, last_given o_output os l /\ In (lit_str "accuracy") l.
  Lemma accuracy_field l m : each (fun s f => In (s, f) field_names) l m -> (In FAccuracy m <-> In (lit_str "accuracy") l).
  Proof.
    intros [_ H]. induction H as [|s f l m H1 H2 IH]; [tauto|]. cbn [In]. rewrite IH. split; intros [E|E]; auto; left.
    - subst f. cbn [In field_names] in H1. repeat destruct H1 as [H1|H1]; try contradiction; injection H1 as <-; [reflexivity|discriminate..].
    - subst s. apply field_of_names in H1. vm_compute in H1. now injection H1.
  Qed.
  Theorem C81_usage_error_iff clocks fuel fs os :
    snd (cli_run clocks fuel fs os) = UsageError <->
    (exists o, In o os /\ ~ acceptable fs o) \/ not_given o_algorithm os \/ not_given o_dataset os \/ accuracy_unsupervised os.
  Proof.
    assert (D : (exists o, In o os /\ ~ acceptable fs o) \/ forall o, In o os -> acceptable fs o).
    { induction os as [|o os0 [(o1 & Hin & Ho)|IH]]; [right; intros o []|left; exists o1; split; [now right|exact Ho]|]. destruct (acceptable_dec fs o) as [A|A]; [right; intros o1 [<-|Hin]; auto|left; exists o; split; [now left|exact A]]. }
    destruct D as [D|D]; [split; [now left|intros _; rewrite C81_refused by (now left); reflexivity]|].
    destruct (given_or_not o_algorithm os) as [[la Ga]|Ga]; [|split; [auto|intros _; rewrite C81_refused by auto; reflexivity]].
    destruct (given_or_not o_dataset os) as [[ld Gd]|Gd]; [|split; [auto|intros _; rewrite C81_refused by auto; reflexivity]].
    assert (Na : ~ not_given o_algorithm os). { destruct Ga as (b & o & a & -> & S & _). intros N. rewrite N in S; [discriminate|]. apply in_or_app. right. now left. }
    assert (Nd : ~ not_given o_dataset os). { destruct Gd as (b & o & a & -> & S & _). intros N. rewrite N in S; [discriminate|]. apply in_or_app. right. now left. }
    destruct (C81_accepted clocks fuel fs os D Na Nd) as (args & (_ & _ & _ & As & _ & _ & Af) & P & ->).
    destruct (C49_run parse label ord Ord ltw rnd irrefl pfloat decimal DEC clocks fuel args P) as (_ & Q1 & Q2 & Q3).
    assert (NoUsage : forall d sup, outcome_spec ltw rnd clocks fuel args d sup UsageError -> False) by (intros d sup H; exact H).
    assert (Acc : In FAccuracy (ra_fields args) <-> exists l, last_given o_output os l /\ In (lit_str "accuracy") l).
    { destruct Af as [(l & Hl & He)|[N ->]].
      - rewrite (accuracy_field _ _ He). split; [eauto|]. intros (l' & Hl' & Hin). now rewrite (last_given_fun _ _ _ _ Hl Hl').
      - split; [cbn; intuition discriminate|]. intros (l & (b & o & a & -> & S & _) & _). rewrite N in S; [discriminate|]. apply in_or_app. right. now left. }
    split.
    - intros E. right. right. right. destruct (ra_supervised args) eqn:Es.
      + specialize (Q3 eq_refl). rewrite E in Q3. destruct (csv_to_masked_array parse (ra_text args)); [|discriminate]. destruct Q3 as (? & ? & ? & _ & _ & _ & _ & Q). destruct (NoUsage _ _ Q).
      + assert (Ns : ~ In RSupervised os) by (intros H; apply As in H; discriminate). split; [exact Ns|]. apply Acc.
        destruct (mem FAccuracy (ra_fields args)) eqn:M; [now apply mem_In|]. apply mem_false in M. specialize (Q2 eq_refl M). rewrite E in Q2. destruct (csv_to_masked_array parse (ra_text args)); [|discriminate]. destruct Q2 as (? & _ & Q). destruct (NoUsage _ _ Q).
    - intros [(o & Hin & Ho)|[H|[H|[Ns H]]]]; [destruct (Ho (D o Hin))|contradiction|contradiction|]. apply Q1; [|now apply Acc]. destruct (ra_supervised args); [|reflexivity]. exfalso. now apply Ns, As.
  Qed.
  (** whatever the options: the only uncaught exceptions are those of reading the file and of running an algorithm *)
  Theorem C81_crashes clocks fuel fs os e : snd (cli_run clocks fuel fs os) = Crashed e ->
    (exists c, e = CrashLoad (InvalidCsv c)) \/ (exists a, e = CrashAlg a).
  Proof.
    intros E. assert (NU : ~ snd (cli_run clocks fuel fs os) = UsageError) by (rewrite E; discriminate). rewrite C81_usage_error_iff in NU.
    assert (D : forall o, In o os -> acceptable fs o). { intros o Hin. destruct (acceptable_dec fs o) as [A|A]; [exact A|]. exfalso. apply NU. left. eauto. }
    destruct (C81_accepted clocks fuel fs os D) as (args & _ & P & Er); [tauto..|]. rewrite Er in E. clear Er NU.
    destruct (C49_run parse label ord Ord ltw rnd irrefl pfloat decimal DEC clocks fuel args P) as (_ & Q1 & Q2 & Q3). rewrite E in *.
    assert (OnlyAlg : forall d sup, outcome_spec ltw rnd clocks fuel args d sup (Crashed e) -> exists a, e = CrashAlg a) by (intros d sup H; destruct e; cbn in H; try contradiction; eauto).
    destruct (ra_supervised args).
    - specialize (Q3 eq_refl). destruct (csv_to_masked_array parse (ra_text args)) as [m|c]; [|injection Q3 as ->; left; eauto]. destruct Q3 as (? & ? & ? & _ & _ & _ & _ & Q). right. exact (OnlyAlg _ _ Q).
    - destruct (mem FAccuracy (ra_fields args)) eqn:M; [apply mem_In in M; specialize (Q1 eq_refl M); discriminate|]. apply mem_false in M. specialize (Q2 eq_refl M).
      destruct (csv_to_masked_array parse (ra_text args)) as [m|c]; [|injection Q2 as ->; left; eauto]. destruct Q2 as (? & _ & Q). right. exact (OnlyAlg _ _ Q).
  Qed.
End RunOptions.

(** ** C82: synth *)
Definition o_trust (o : synth_option) := match o with STrust l => Some l | _ => None end.
Definition o_num_vars (o : synth_option) := match o with SNumVars s => Some s | _ => None end.
Definition o_claim_prob (o : synth_option) := match o with SClaimProb s => Some s | _ => None end.
Definition o_domain_size (o : synth_option) := match o with SDomainSize s => Some s | _ => None end.
Section SynthOptions.
  Context {C W : Type} {EW : Eqb W} {F' : Num} {FOK : NumOK F'}.
  Variable parse : pystr -> option (option C).
  Variable show : C -> pystr.
  Hypothesis OK : prints_numbers parse show.
  Variable num_of : nat -> C.
  Variable label : C -> W.
  Variable pfloat : pystr -> option XR.
  Variable pint : pystr -> option Z.
  Definition synth_acceptable (o : synth_option) : Prop :=
    match o with
    | STrust l => all_good (fun s x => pfloat s = Some x) l
    | SNumVars s | SDomainSize s => exists z, pint s = Some z
    | SClaimProb s => exists x, pfloat s = Some x
    end.
  Definition synth_arguments (os : list synth_option) (args : synth_args (F:=XR)) : Prop :=
    holds o_trust (each (fun s x => pfloat s = Some x)) os (Some (sa_trust args)) /\
    holds o_num_vars (fun s z => pint s = Some z) os (sa_num_vars args) /\
    holds o_claim_prob (fun s x => pfloat s = Some x) os (sa_claim_prob args) /\
    holds o_domain_size (fun s z => pint s = Some z) os (sa_domain_size args).
  Definition synth_rep (os : list synth_option) (ns : synth_space (F:=XR)) : Prop :=
    holds o_trust (each (fun s x => pfloat s = Some x)) os (ss_trust ns) /\
    holds o_num_vars (fun s z => pint s = Some z) os (ss_num_vars ns) /\
    holds o_claim_prob (fun s x => pfloat s = Some x) os (ss_claim_prob ns) /\
    holds o_domain_size (fun s z => pint s = Some z) os (ss_domain_size ns).
  Lemma synth_step os ns o : synth_rep os ns ->
    (synth_acceptable o -> exists ns', synth_take pfloat pint ns o = Ok ns' /\ synth_rep (os ++ [o]) ns') /\
    (~ synth_acceptable o -> synth_take pfloat pint ns o = Err Refused).
  Proof.
    destruct ns as [t n c d]. unfold synth_rep. cbn [ss_trust ss_num_vars ss_claim_prob ss_domain_size]. intros (Rt & Rn & Rc & Rd).
    destruct o as [l|s|s|s]; cbn [synth_take synth_acceptable].
    - destruct (one_or_more_spec (fun x => plain (pfloat x)) (fun s x => pfloat s = Some x) l (conv_plain pfloat) (conv_plain_spec pfloat)) as [G1 G2]. split.
      + intros [NE H]. destruct (G1 NE H) as (m & -> & Hm). cbn [bind]. eexists. split; [reflexivity|]. cbn [ss_trust ss_num_vars ss_claim_prob ss_domain_size].
        split; [now apply (holds_hit o_trust _ os _ l)|]. repeat (split; [now apply holds_miss|]). now apply holds_miss.
      + intros H. now rewrite (G2 H).
    - split.
      + intros [z Hz]. rewrite Hz. cbn [plain bind]. eexists. split; [reflexivity|]. cbn [ss_trust ss_num_vars ss_claim_prob ss_domain_size].
        split; [now apply holds_miss|]. split; [now apply (holds_hit o_num_vars _ os _ s)|]. split; now apply holds_miss.
      + intros H. destruct (pint s) as [z|]; [exfalso; apply H; eauto|reflexivity].
    - split.
      + intros [z Hz]. rewrite Hz. cbn [plain bind]. eexists. split; [reflexivity|]. cbn [ss_trust ss_num_vars ss_claim_prob ss_domain_size].
        split; [now apply holds_miss|]. split; [now apply holds_miss|]. split; [now apply (holds_hit o_claim_prob _ os _ s)|now apply holds_miss].
      + intros H. destruct (pfloat s) as [z|]; [exfalso; apply H; eauto|reflexivity].
    - split.
      + intros [z Hz]. rewrite Hz. cbn [plain bind]. eexists. split; [reflexivity|]. cbn [ss_trust ss_num_vars ss_claim_prob ss_domain_size].
        split; [now apply holds_miss|]. split; [now apply holds_miss|]. split; [now apply holds_miss|now apply (holds_hit o_domain_size _ os _ s)].
      + intros H. destruct (pint s) as [z|]; [exfalso; apply H; eauto|reflexivity].
  Qed.
  Lemma synth_all_ok os : forall pre ns, synth_rep pre ns -> (forall o, In o os -> synth_acceptable o) -> exists ns', take_all (synth_take pfloat pint) ns os = Ok ns' /\ synth_rep (pre ++ os) ns'.
  Proof.
    induction os as [|o os IH]; intros pre ns R H; cbn [take_all]; [exists ns; rewrite app_nil_r; auto|].
    destruct (proj1 (synth_step pre ns o R) (H o (or_introl eq_refl))) as (ns1 & -> & R1). cbn [bind]. destruct (IH (pre ++ [o]) ns1 R1) as (ns' & E & R'); [intros o' Ho; apply H; now right|].
    exists ns'. split; [exact E|]. now rewrite <- app_assoc in R'.
  Qed.
  Lemma synth_acceptable_dec o : synth_acceptable o \/ ~ synth_acceptable o.
  Proof.
    destruct o as [l|s|s|s]; cbn [synth_acceptable]; [exact (all_good_dec _ _ l (conv_plain pfloat) (conv_plain_spec pfloat))|destruct (pint s); [left; eauto|right; intros [? ?]; discriminate]|destruct (pfloat s); [left; eauto|right; intros [? ?]; discriminate]|destruct (pint s); [left; eauto|right; intros [? ?]; discriminate]].
  Qed.
  Lemma synth_all_refused os : forall pre ns, synth_rep pre ns -> (exists o, In o os /\ ~ synth_acceptable o) -> take_all (synth_take pfloat pint) ns os = Err Refused.
  Proof.
    induction os as [|o os IH]; intros pre ns R (o0 & Hin & Ho); [destruct Hin|]. cbn [take_all]. destruct (synth_step pre ns o R) as [G1 G2]. destruct (synth_acceptable_dec o) as [A|A]; [|now rewrite (G2 A)].
    destruct (G1 A) as (ns1 & -> & R1). cbn [bind]. apply (IH (pre ++ [o]) ns1 R1). exists o0. split; [|exact Ho]. destruct Hin as [<-|Hin]; [contradiction|exact Hin].
  Qed.
  Lemma synth_rep0 : synth_rep [] (SynthSpace None None None None).
  Proof. repeat (split; [apply holds_nil|]). apply holds_nil. Qed.
  (** usage error: some value is not a number, --trust is missing, or SyntheticData refuses the values (C14, C56) *)
  Theorem C82_synth_refused g os : uniform g ->
    (exists o, In o os /\ ~ synth_acceptable o) \/ not_given o_trust os \/ (exists args, synth_arguments os args /\ ~ valid_synth args) ->
    cli_synth pfloat pint (fun n => show (num_of n)) g os = SynthRefused.
  Proof.
    intros U H. unfold cli_synth, synth_parse.
    assert (D : (exists o, In o os /\ ~ synth_acceptable o) \/ forall o, In o os -> synth_acceptable o).
    { clear H. induction os as [|o os [(o1 & Hin & Ho)|IH]]; [right; intros o []|left; exists o1; split; [now right|exact Ho]|]. destruct (synth_acceptable_dec o) as [A|A]; [right; intros o1 [<-|Hin]; auto|left; exists o; split; [now left|exact A]]. }
    destruct D as [D|D]; [now rewrite (synth_all_refused os [] _ synth_rep0 D)|].
    destruct (synth_all_ok os [] _ synth_rep0 D) as (ns & -> & R). cbn [bind app] in *. unfold synth_rep in R. destruct R as (Rt & Rn & Rc & Rd).
    destruct (ss_trust ns) as [t|] eqn:Et; [|reflexivity]. destruct H as [(o & Hin & Ho)|[H|(args & (At & An & Ac & Ad) & V)]]; [destruct (Ho (D o Hin))|destruct (not_holds _ _ _ _ Rt H)|].
    assert (Same : forall (A B R : Type) (sel : synth_option -> option R) (conv : R -> A -> Prop) x y, (forall r a b, conv r a -> conv r b -> a = b) -> holds sel conv os x -> holds sel conv os y -> x = y).
    { intros A B R0 sel conv x y Fun Hx Hy. destruct x as [x|], y as [y|]; [|destruct (not_holds _ _ _ _ Hx Hy)|destruct (not_holds _ _ _ _ Hy Hx)|reflexivity].
      destruct Hx as (r & L1 & C1), Hy as (r' & L2 & C2). rewrite (last_given_fun _ _ _ _ L1 L2) in C1. f_equal. exact (Fun _ _ _ C1 C2). }
    assert (EachFun : forall l a b, each (fun s x => pfloat s = Some x) l a -> each (fun s x => pfloat s = Some x) l b -> a = b).
    { intros l a b [_ Ha] [_ Hb]. revert b Hb. induction Ha as [|s x l a H1 H2 IH]; intros b Hb; inversion Hb; subst; [reflexivity|]. f_equal; [congruence|auto]. }
    assert (E : args = SynthArgs t (ss_num_vars ns) (ss_claim_prob ns) (ss_domain_size ns)).
    { destruct args as [t' n' c' d']. cbn [sa_trust sa_num_vars sa_claim_prob sa_domain_size] in *. f_equal.
      - pose proof (Same _ nat _ _ _ _ _ EachFun At Rt) as Q. congruence.
      - refine (Same _ nat _ _ _ _ _ _ An Rn). congruence.
      - refine (Same _ nat _ _ _ _ _ _ Ac Rc). congruence.
      - refine (Same _ nat _ _ _ _ _ _ Ad Rd). congruence. }
    rewrite <- E. destruct (proj2 (C56_synth (F':=F') parse show OK num_of label g args U) V) as (e & -> & _). reflexivity.
  Qed.
  (** otherwise a text is printed that reads back as a supervised dataset with a source for each trust value and the requested number of variables *)
  Theorem C82_synth_printed g os : uniform g -> (forall o, In o os -> synth_acceptable o) -> ~ not_given o_trust os ->
    exists args, synth_arguments os args /\
      (valid_synth args -> exists text m vals (d : dataset nat nat W F'), cli_synth pfloat pint (fun n => show (num_of n)) g os = SynthPrints text /\
         supervised_from_csv label parse text = Ok (vals, m, d) /\
         (forall i, i < length (sa_trust args) <-> source_id d i <> None) /\ (forall j, (Z.of_nat j < synth_variables args)%Z <-> variable_id d j <> None) /\
         (forall j, (Z.of_nat j < synth_variables args)%Z <-> dget vals j <> None)) /\
      (~ valid_synth args -> cli_synth pfloat pint (fun n => show (num_of n)) g os = SynthRefused).
  Proof.
    intros U D Nt. destruct (synth_all_ok os [] _ synth_rep0 D) as (ns & E & R). cbn [app] in R. pose proof R as (Rt & Rn & Rc & Rd).
    destruct (ss_trust ns) as [t|] eqn:Et; [|contradiction]. set (args := SynthArgs t (ss_num_vars ns) (ss_claim_prob ns) (ss_domain_size ns)). assert (A : synth_arguments os args) by (repeat (split; [assumption|]); assumption).
    exists args. split; [exact A|]. split; [|intros V; apply C82_synth_refused; [exact U|right; right; eauto]].
    intros V. destruct (proj1 (C56_synth (F':=F') parse show OK num_of label g args U) V) as (csv & m & tv & vals & d & E1 & E2 & E3 & E4 & E5 & _).
    exists (csv ++ [newline]), m, vals, d. split; [|auto]. unfold cli_synth, synth_parse. rewrite E. cbn [bind]. rewrite Et. fold args. now rewrite E1.
  Qed.
End SynthOptions.

(** ** C82: graph *)
Definition o_input (o : graph_option) := match o with GDataset p => Some p | _ => None end.
Definition o_outfile (o : graph_option) := match o with GOutfile p => Some p | _ => None end.
Definition o_width (o : graph_option) := match o with GWidth s => Some s | _ => None end.
Definition o_node_radius (o : graph_option) := match o with GNodeRadius s => Some s | _ => None end.
Definition o_spacing (o : graph_option) := match o with GSpacing s => Some s | _ => None end.
Definition o_font_size (o : graph_option) := match o with GFontSize s => Some s | _ => None end.
Definition o_line_width (o : graph_option) := match o with GLineWidth s => Some s | _ => None end.
Definition o_border_width (o : graph_option) := match o with GNodeBorderWidth s => Some s | _ => None end.
Section GraphOptions.
  Context {C W : Type} {EW : Eqb W} {F : Num} {FOK : NumOK F}.
  Variable parse : pystr -> option (option C).
  Variable label : C -> W.
  Variable T : trig F.
  Variable show_nat : nat -> pystr.
  Variable show_w : W -> pystr.
  Variable pint : pystr -> option Z.
  Variable writable : pystr -> bool.
  Variable text_extents : F -> pystr -> extents F.
  Variable png : Png.picture F -> pystr.
  (** an option after the options [pre]: a dataset can be read if it was there at first or an earlier -o has made it *)
  Definition graph_acceptable (fs : files) (pre : list graph_option) (o : graph_option) : Prop :=
    match o with
    | GDataset p => fs p <> None \/ In (GOutfile p) pre
    | GOutfile p => writable p = true
    | GWidth s | GNodeRadius s | GSpacing s | GFontSize s | GLineWidth s | GNodeBorderWidth s => exists z, pint s = Some z
    | GOneIndexed => True
    end.
  Definition all_acceptable (fs : files) (os : list graph_option) : Prop := forall pre o post, os = pre ++ o :: post -> graph_acceptable fs pre o.
  (** the files after the options: those named by -o are empty, the others as before *)
  Definition emptied (fs : files) (os : list graph_option) (fs' : files) : Prop :=
    forall p, (In (GOutfile p) os -> fs' p = Some []) /\ (~ In (GOutfile p) os -> fs' p = fs p).
  Definition graph_arguments (fs : files) (os : list graph_option) (args : graph_args) : Prop :=
    holds o_input (fun p text => fs p = Some text) os (Some (ga_text args)) /\
    holds o_width (fun s z => pint s = Some z) os (ga_width args) /\ holds o_node_radius (fun s z => pint s = Some z) os (ga_radius args) /\
    holds o_spacing (fun s z => pint s = Some z) os (ga_spacing args) /\ holds o_font_size (fun s z => pint s = Some z) os (ga_font args) /\
    holds o_line_width (fun s z => pint s = Some z) os (ga_line_width args) /\ holds o_border_width (fun s z => pint s = Some z) os (ga_border args) /\
    (ga_one_indexed args = true <-> In GOneIndexed os).
  Definition graph_rep (fs : files) (os : list graph_option) (st : files * graph_space) : Prop :=
    emptied fs os (fst st) /\ holds o_input eq os (gs_dataset (snd st)) /\ holds o_outfile eq os (gs_outfile (snd st)) /\
    holds o_width (fun s z => pint s = Some z) os (gs_width (snd st)) /\ holds o_node_radius (fun s z => pint s = Some z) os (gs_radius (snd st)) /\
    holds o_spacing (fun s z => pint s = Some z) os (gs_spacing (snd st)) /\ holds o_font_size (fun s z => pint s = Some z) os (gs_font (snd st)) /\
    holds o_line_width (fun s z => pint s = Some z) os (gs_line_width (snd st)) /\ holds o_border_width (fun s z => pint s = Some z) os (gs_border (snd st)) /\
    (gs_one_indexed (snd st) = true <-> In GOneIndexed os).
  Lemma in_snoc {A} (x : A) l y : In x (l ++ [y]) <-> In x l \/ y = x.
  Proof. rewrite in_app_iff. cbn. tauto. Qed.
  Lemma emptied_other fs os o fs' : (forall p, o <> GOutfile p) -> emptied fs os fs' -> emptied fs (os ++ [o]) fs'.
  Proof. intros N H p. destruct (H p) as [H1 H2]. rewrite in_snoc. split; [intros [Q|Q]; [auto|destruct (N p Q)]|intros Q; apply H2; tauto]. Qed.
  Lemma out_dec (p : pystr) os : In (GOutfile p) os \/ ~ In (GOutfile p) os.
  Proof.
    induction os as [|o os [IH|IH]]; [right; intros []|left; now right|]. destruct o as [q|q| | | | | | |]; try (right; intros [Q|Q]; [discriminate|contradiction]).
    destruct (beq_spec q p) as [->|N]; [left; now left|right; intros [Q|Q]; [congruence|contradiction]].
  Qed.
  Lemma graph_step fs os st o : graph_rep fs os st ->
    (graph_acceptable fs os o -> exists st', graph_take pint writable st o = Ok st' /\ graph_rep fs (os ++ [o]) st') /\
    (~ graph_acceptable fs os o -> graph_take pint writable st o = Err Refused).
  Proof.
    destruct st as [fs1 [d u w r s f l b i]]. unfold graph_rep. cbn [fst snd gs_dataset gs_outfile gs_width gs_radius gs_spacing gs_font gs_line_width gs_border gs_one_indexed].
    intros (Re & Rd & Ru & Rw & Rr & Rs & Rf & Rl & Rb & Ri).
    assert (One : o <> GOneIndexed -> (i = true <-> In GOneIndexed (os ++ [o]))) by (intros N; rewrite in_snoc, Ri; split; [auto|intros [Q|Q]; [exact Q|congruence]]).
    destruct o as [p|p|x|x|x|x|x|x|]; cbn [graph_take graph_acceptable].
    - assert (Rdb : fs1 p <> None <-> fs p <> None \/ In (GOutfile p) os).
      { destruct (Re p) as [R1 R2]. destruct (out_dec p os) as [Q|Q]; [rewrite (R1 Q); split; [auto|discriminate]|rewrite (R2 Q); tauto]. }
      rewrite <- Rdb. split.
      + intros H. destruct (fs1 p) as [t|] eqn:Ep; [|now destruct H]. eexists. split; [reflexivity|]. cbn [fst snd gs_dataset gs_outfile gs_width gs_radius gs_spacing gs_font gs_line_width gs_border gs_one_indexed].
        split; [apply emptied_other; [discriminate|exact Re]|]. split; [now apply (holds_hit o_input _ os _ p)|]. do 7 (split; [now apply holds_miss|]). apply One. discriminate.
      + intros H. destruct (fs1 p); [exfalso; apply H; discriminate|reflexivity].
    - split.
      + intros ->. eexists. split; [reflexivity|]. cbn [fst snd gs_dataset gs_outfile gs_width gs_radius gs_spacing gs_font gs_line_width gs_border gs_one_indexed].
        split.
        { intros q. destruct (Re q) as [R1 R2]. rewrite in_snoc. unfold put. destruct (beq_spec q p) as [->|N].
          - split; [reflexivity|]. intros Q. exfalso. apply Q. now right.
          - split; [intros [Q|Q]; [auto|congruence]|intros Q; apply R2; tauto]. }
        split; [now apply holds_miss|]. split; [now apply (holds_hit o_outfile _ os _ p)|]. do 6 (split; [now apply holds_miss|]). apply One. discriminate.
      + intros H. destruct (writable p); [now destruct H|reflexivity].
    - split; [intros [z Hz]; rewrite Hz; cbn [plain bind]|intros H; destruct (pint x) as [z|]; [exfalso; apply H; eauto|reflexivity]]. eexists. split; [reflexivity|]. cbn [fst snd gs_dataset gs_outfile gs_width gs_radius gs_spacing gs_font gs_line_width gs_border gs_one_indexed].
      split; [apply emptied_other; [discriminate|exact Re]|]. do 2 (split; [now apply holds_miss|]). split; [now apply (holds_hit o_width _ os _ x)|]. do 5 (split; [now apply holds_miss|]). apply One. discriminate.
    - split; [intros [z Hz]; rewrite Hz; cbn [plain bind]|intros H; destruct (pint x) as [z|]; [exfalso; apply H; eauto|reflexivity]]. eexists. split; [reflexivity|]. cbn [fst snd gs_dataset gs_outfile gs_width gs_radius gs_spacing gs_font gs_line_width gs_border gs_one_indexed].
      split; [apply emptied_other; [discriminate|exact Re]|]. do 3 (split; [now apply holds_miss|]). split; [now apply (holds_hit o_node_radius _ os _ x)|]. do 4 (split; [now apply holds_miss|]). apply One. discriminate.
    - split; [intros [z Hz]; rewrite Hz; cbn [plain bind]|intros H; destruct (pint x) as [z|]; [exfalso; apply H; eauto|reflexivity]]. eexists. split; [reflexivity|]. cbn [fst snd gs_dataset gs_outfile gs_width gs_radius gs_spacing gs_font gs_line_width gs_border gs_one_indexed].
      split; [apply emptied_other; [discriminate|exact Re]|]. do 4 (split; [now apply holds_miss|]). split; [now apply (holds_hit o_spacing _ os _ x)|]. do 3 (split; [now apply holds_miss|]). apply One. discriminate.
    - split; [intros [z Hz]; rewrite Hz; cbn [plain bind]|intros H; destruct (pint x) as [z|]; [exfalso; apply H; eauto|reflexivity]]. eexists. split; [reflexivity|]. cbn [fst snd gs_dataset gs_outfile gs_width gs_radius gs_spacing gs_font gs_line_width gs_border gs_one_indexed].
      split; [apply emptied_other; [discriminate|exact Re]|]. do 5 (split; [now apply holds_miss|]). split; [now apply (holds_hit o_font_size _ os _ x)|]. do 2 (split; [now apply holds_miss|]). apply One. discriminate.
    - split; [intros [z Hz]; rewrite Hz; cbn [plain bind]|intros H; destruct (pint x) as [z|]; [exfalso; apply H; eauto|reflexivity]]. eexists. split; [reflexivity|]. cbn [fst snd gs_dataset gs_outfile gs_width gs_radius gs_spacing gs_font gs_line_width gs_border gs_one_indexed].
      split; [apply emptied_other; [discriminate|exact Re]|]. do 6 (split; [now apply holds_miss|]). split; [now apply (holds_hit o_line_width _ os _ x)|]. split; [now apply holds_miss|]. apply One. discriminate.
    - split; [intros [z Hz]; rewrite Hz; cbn [plain bind]|intros H; destruct (pint x) as [z|]; [exfalso; apply H; eauto|reflexivity]]. eexists. split; [reflexivity|]. cbn [fst snd gs_dataset gs_outfile gs_width gs_radius gs_spacing gs_font gs_line_width gs_border gs_one_indexed].
      split; [apply emptied_other; [discriminate|exact Re]|]. do 7 (split; [now apply holds_miss|]). split; [now apply (holds_hit o_border_width _ os _ x)|]. apply One. discriminate.
    - split; [intros _|intros H; now destruct H]. eexists. split; [reflexivity|]. cbn [fst snd gs_dataset gs_outfile gs_width gs_radius gs_spacing gs_font gs_line_width gs_border gs_one_indexed].
      split; [apply emptied_other; [discriminate|exact Re]|]. do 8 (split; [now apply holds_miss|]). split; [intros _; apply in_snoc; now right|reflexivity].
  Qed.
  Lemma graph_all_ok fs os rest : forall pre st, graph_rep fs pre st -> (forall a o c, os = a ++ o :: c -> graph_acceptable fs (pre ++ a) o) ->
    exists st', graph_take_all pint writable st (os ++ rest) = graph_take_all pint writable st' rest /\ graph_rep fs (pre ++ os) st'.
  Proof.
    induction os as [|o os IH]; intros pre st R H; cbn [app graph_take_all]; [exists st; rewrite app_nil_r; auto|].
    pose proof (H [] o os eq_refl) as Ho. rewrite app_nil_r in Ho. destruct (proj1 (graph_step fs pre st o R) Ho) as (st1 & -> & R1). destruct (IH (pre ++ [o]) st1 R1) as (st' & E & R').
    - intros a o' c Ea. rewrite <- app_assoc. apply (H (o :: a) o' c). now rewrite Ea.
    - exists st'. split; [exact E|]. now rewrite <- app_assoc in R'.
  Qed.
  Lemma graph_rep0 fs : graph_rep fs [] (fs, graph_space0).
  Proof. split; [intros p; split; [intros []|reflexivity]|]. repeat (split; [apply holds_nil|]). split; [discriminate|intros []]. Qed.
  Notation cli_graph := (cli_graph parse label pint writable T show_nat show_w text_extents png).
  (** the first option that is refused stops the command; the output files named before it have been emptied *)
  Theorem C82_graph_refused fs pre o post : all_acceptable fs pre -> ~ graph_acceptable fs pre o ->
    exists fs', cli_graph fs (pre ++ o :: post) = (fs', GraphRefused) /\ emptied fs pre fs'.
  Proof.
    intros A N. destruct (graph_all_ok fs pre (o :: post) [] _ (graph_rep0 fs)) as (st & E & R); [intros a o' c Ea; exact (A a o' c Ea)|]. cbn [app] in R.
    unfold Args.cli_graph. rewrite E. cbn [graph_take_all]. rewrite (proj2 (graph_step fs pre st o R) N). exists (fst st). split; [reflexivity|exact (proj1 R)].
  Qed.
  Theorem C82_graph_missing fs os : all_acceptable fs os -> not_given o_input os \/ not_given o_outfile os ->
    exists fs', cli_graph fs os = (fs', GraphRefused) /\ emptied fs os fs'.
  Proof.
    intros A N. destruct (graph_all_ok fs os [] [] _ (graph_rep0 fs)) as (st & E & R); [intros a o' c Ea; exact (A a o' c Ea)|]. cbn [app] in R. rewrite app_nil_r in E.
    unfold Args.cli_graph. rewrite E. cbn [graph_take_all]. exists (fst st). split; [|exact (proj1 R)]. destruct R as (_ & Rd & Ru & _).
    destruct (gs_dataset (snd st)) as [p|]; [|reflexivity]. destruct (gs_outfile (snd st)) as [q|]; [|reflexivity]. exfalso. destruct N as [N|N]; [exact (not_holds _ _ _ _ Rd N)|exact (not_holds _ _ _ _ Ru N)].
  Qed.
  (** the picture of the data with the sizes and the numbering that are asked for: an entity for each node and edge (C57), drawn by the marks of C69 *)
  Definition drawn (args : graph_args) (ts : list (nat * nat * W)) (sz : sizes) (p : Png.picture F) : Prop :=
    p_width p = g_width sz /\ p_height p = needed_height sz ts /\
    exists P height mss, p_marks p = concat mss /\ Forall2 (PropsPng.shows text_extents (g_width sz)) (PropsGraph.picture sz (graph_style show_nat show_w args) (arrow_head T sz) ts P height None) mss.
  Lemma picture_colours sz (y y' : style nat nat W F) head ts P height progress :
    (forall s, st_source y s = st_source y' s) -> (forall c, st_claim y c = st_claim y' c) -> (forall x, st_variable y x = st_variable y' x) -> (forall n, graph_node ts n -> st_colours y n = st_colours y' n) ->
    st_background y = st_background y' -> st_edge y = st_edge y' -> st_progress y = st_progress y' ->
    PropsGraph.picture sz y head ts P height progress = PropsGraph.picture sz y' head ts P height progress.
  Proof.
    intros H1 H2 H3 H4 H5 H6 H7. unfold PropsGraph.picture.
    assert (Ee : forall a b, edge_picture sz y head a b = edge_picture sz y' head a b) by (intros a b; unfold edge_picture; now rewrite H6).
    assert (En : forall n text xy, graph_node ts n -> node_picture sz y n text xy = node_picture sz y' n text xy) by (intros n text xy Hn; unfold node_picture; now rewrite (H4 n Hn), H5).
    rewrite H5, H7. f_equal. f_equal; [apply flat_map_ext; intros p; apply Ee|]. assert (Fm : forall (A B : Type) (f g : A -> list B) l, (forall a, In a l -> f a = g a) -> flat_map f l = flat_map g l).
    { intros A B f g l H. induction l as [|a l IH]; [reflexivity|]. cbn. rewrite (H a (or_introl eq_refl)), IH by (intros a' Ha; apply H; now right). reflexivity. }
    f_equal; [apply Fm; intros [x w] Hc; rewrite Ee, H2, (En (NClaim (fst (x, w)) (snd (x, w)))) by exact Hc; reflexivity|].
    f_equal; [apply Fm; intros x Hx; rewrite H3; now apply En|]. f_equal. apply Fm. intros s Hs. rewrite H1. now apply En.
  Qed.
  (** otherwise the dataset is read, after the output files have been emptied: either it is not a matrix, a usage error; or the image would not
      have between 1 and 32767 pixels in both directions, an uncaught cairo.Error; or the last output file holds the picture.  No other file is changed. *)
  Theorem C82_graph fs os out : all_acceptable fs os -> ~ not_given o_input os -> last_given o_outfile os out ->
    exists fs0 args, emptied fs os fs0 /\ graph_arguments fs0 os args /\
      match csv_to_masked_array parse (ga_text args) with
      | Err _ => cli_graph fs os = (fs0, GraphRefused)
      | Ok m => exists sz, given_sizes args sz /\
          ((1 <= g_width sz <= 32767 /\ 1 <= needed_height sz (get_triples label m) <= 32767)%Z ->
             exists fs' p, cli_graph fs os = (fs', GraphSaved) /\ drawn args (get_triples label m) sz p /\ fs' out = Some (png p) /\ forall q, q <> out -> fs' q = fs0 q) /\
          (~ (1 <= g_width sz <= 32767 /\ 1 <= needed_height sz (get_triples label m) <= 32767)%Z ->
             exists e, cli_graph fs os = (fs0, GraphCrashes (inl e)))
      end.
  Proof.
    intros A Nd Lo. destruct (graph_all_ok fs os [] [] _ (graph_rep0 fs)) as (st & E & R); [intros a o' c Ea; exact (A a o' c Ea)|]. cbn [app] in R. rewrite app_nil_r in E. cbn [graph_take_all] in E.
    destruct st as [fs0 ns]. cbn [fst snd] in E. unfold graph_rep in R. cbn [fst snd] in R. destruct R as (Re & Rd & Ru & Rw & Rr & Rs & Rf & Rl & Rb & Ri).
    destruct (gs_dataset ns) as [path|] eqn:Ed; [|contradiction]. destruct (gs_outfile ns) as [q|] eqn:Eq; [|exfalso; destruct Lo as (b & o & a & -> & S & _); rewrite Ru in S; [discriminate|apply in_or_app; right; now left]].
    assert (q = out) as -> by (destruct Ru as (r & L & <-); exact (last_given_fun _ _ _ _ L Lo)).
    destruct Rd as (r & Ld & ->). assert (Rp : exists text, fs0 path = Some text).
    { destruct Ld as (b & o & a & Eo & So & _). destruct o as [p| | | | | | | |]; try discriminate. injection So as ->. destruct (Re path) as [R1 R2]. destruct (out_dec path os) as [Q|Q]; [exists []; auto|]. rewrite (R2 Q).
      destruct (A b (GDataset path) a Eo) as [H|H]; [destruct (fs path); [eauto|now destruct H]|]. exfalso. apply Q. rewrite Eo. apply in_or_app. now left. }
    destruct Rp as [text Et].
    set (args := GraphArgs (gs_width ns) (gs_radius ns) (gs_spacing ns) (gs_font ns) (gs_line_width ns) (gs_border ns) (gs_one_indexed ns) text). exists fs0, args. split; [exact Re|]. split.
    { split; [exists path; split; [exact Ld|exact Et]|]. repeat (split; [assumption|]). exact Ri. }
    unfold Args.cli_graph. rewrite E, Ed, Eq. cbv zeta. rewrite Et. fold args.
    pose proof (C10_from_csv (F:=F) parse label text) as Q. change (ga_text args) with text. destruct (csv_to_masked_array parse text) as [m|e]; [|now rewrite Q]. destruct Q as (d & -> & Hd).
    set (sz := graph_sizes args). set (nm := matrix_naming show_nat show_w (negb (ga_one_indexed args))). exists sz. split.
    { intros o df v H. cbn [In] in H. repeat destruct H as [H|H]; try contradiction; injection H as <- <- <-; reflexivity. }
    destruct (C69_graph (fun _ => None) T sz nm text_extents false None (get_triples label m) d Hd (RState None DefaultScheme) None) as [Q1 Q2]. split.
    - intros [Hw Hh]. destruct (proj2 Q2) as [p Ep]; [split; [exact Hw|split; [exact Hh|intros n _; cbn; eauto]]|]. rewrite Ep. exists (put fs0 out (png p)), p. split; [reflexivity|]. split.
      + destruct (Q1 p Ep) as (P1 & P2 & cols & P & height & mss & Hc & Hm & Hs). split; [exact P1|]. split; [exact P2|]. exists P, height, mss. split; [exact Hm|].
        rewrite (picture_colours sz (graph_style show_nat show_w args) (style_of nm DefaultScheme cols)); [exact Hs|..];
          unfold graph_style, style_of, nm, matrix_naming, shown_number, shown_value, format_label; cbn [st_source st_claim st_variable st_colours st_background st_edge st_progress nm_src nm_var nm_claim nm_show_src nm_show_var get_background_colour get_edge_colour get_animation_progress_colour];
          try reflexivity; try (intros; destruct (ga_one_indexed args); reflexivity).
        intros n Hn. specialize (Hc n Hn). cbn [rs_colours get_node_colour] in Hc. congruence.
      + unfold put. split; [now rewrite beq_refl|]. intros q N. now rewrite (beq_neq _ _ N).
    - intros N. destruct (snd (render_png _ _ _ _ _ _ _ _)) as [p|e] eqn:Ep; [|eauto]. exfalso. apply N. destruct (proj1 Q2) as (H1 & H2 & _); [eauto|]. auto.
  Qed.
  (** in particular a dataset that is also named as the output file is lost: it is read as an empty file, which (unless the spacing is negative) cannot
      be drawn *)
  Theorem C82_graph_same_file fs os path : all_acceptable fs os -> last_given o_input os path -> last_given o_outfile os path ->
    (forall s z, last_given o_spacing os s -> pint s = Some z -> (0 <= z)%Z) ->
    exists fs' e, cli_graph fs os = (fs', GraphCrashes (inl e)) /\ fs' path = Some [].
  Proof.
    intros A Ld Lo Hs. destruct (C82_graph fs os path A) as (fs0 & args & He & (Ht & _ & _ & Hsp & _) & Q); [|exact Lo|].
    { intros N. destruct Ld as (b & o & a & -> & S & _). rewrite N in S; [discriminate|]. apply in_or_app. right. now left. }
    destruct Ht as (r & Lr & Er). rewrite (last_given_fun _ _ _ _ Lr Ld) in Er. assert (Hin : In (GOutfile path) os). { destruct Lo as (b & o & a & -> & S & _). destruct o; try discriminate. injection S as ->. apply in_or_app. right. now left. }
    pose proof (proj1 (He path) Hin) as E0. rewrite E0 in Er. injection Er as Et. rewrite <- Et in Q.
    assert (Ec : csv_to_masked_array parse [] = Ok [[None]]) by reflexivity. rewrite Ec in Q. destruct Q as (sz & Hz & _ & Q2). destruct Q2 as [e Ee]; [|exists fs0, e; auto].
    intros [_ H]. assert (Esp : g_spacing sz = match ga_spacing args with Some z => z | None => 20%Z end) by (apply (Hz _ 20%Z); cbn; tauto).
    assert (0 <= g_spacing sz)%Z. { rewrite Esp. destruct (ga_spacing args) as [z|]; [|lia]. destruct Hsp as (s & L & Ez). exact (Hs s z L Ez). }
    unfold needed_height in H. change (most (get_triples label [[None]])) with 0%Z in H. lia.
  Qed.
End GraphOptions.

(** * Non-vacuity *)
Module ArgsExamples.
  Import CsvExamples ClientExamples CliExamples.
  Definition fs1 : files := fun p => if beq p (lit_str "a.csv") then Some (to_csv show1 m2) else None.
  Definition pint1 (s : pystr) : option Z := if beq s (lit_str "2") then Some 2%Z else None.
  (** run -a voting -p iterator=fixed-7 " g = 0.1" -f a.csv --sources 2 -a sums average_log *)
  Definition os1 : list run_option :=
    [RAlgorithm [lit_str "voting"]; RParams [lit_str "iterator=fixed-7"; lit_str " g = 0.1"]; RDataset (lit_str "a.csv"); RSources [lit_str "2"]; RAlgorithm [lit_str "sums"; lit_str "average_log"]].
  Lemma param_good s kv : algorithm_parameter pf ascii_decimal s = Ok kv -> parameter_spec pf ascii_decimal s kv.
  Proof. destruct kv as [k v]. intros H. exact (proj1 (C44_accepts_iff pf ascii_decimal ascii_ok s k v) H). Qed.
  Example os1_acceptable : forall o, In o os1 -> acceptable pf ascii_decimal pint1 fs1 o.
  Proof.
    intros o [<-|[<-|[<-|[<-|[<-|[]]]]]]; cbn [acceptable].
    - split; [discriminate|]. intros s [<-|[]]. exists CMajorityVoting. cbn. tauto.
    - split; [discriminate|]. intros s [<-|[<-|[]]]; eexists; apply param_good; vm_compute; reflexivity.
    - eexists. vm_compute. reflexivity.
    - split; [discriminate|]. intros s [<-|[]]. exists 2%Z. reflexivity.
    - split; [discriminate|]. intros s [<-|[<-|[]]]; [exists CSums|exists CAverageLog]; cbn; tauto.
  Qed.
  (** the second -a counts *)
  Example os1_last : last_given o_algorithm os1 [lit_str "sums"; lit_str "average_log"].
  Proof. exists [RAlgorithm [lit_str "voting"]; RParams [lit_str "iterator=fixed-7"; lit_str " g = 0.1"]; RDataset (lit_str "a.csv"); RSources [lit_str "2"]], (RAlgorithm [lit_str "sums"; lit_str "average_log"]), []. split; [reflexivity|]. split; [reflexivity|intros o []]. Qed.
  Definition cli_run1 := cli_run parse1 (fun n : nat => n) pf ascii_decimal ident Nat.ltb (fun _ => 0) pint1 (fun _ _ => Fin 0%R) 100 fs1.
  Example os1_runs : exists args, arguments pf ascii_decimal pint1 fs1 os1 args /\ ra_classes args = [CSums; CAverageLog] /\ ra_sources args = Some [2%Z] /\ cli_run1 os1 = run_algorithm parse1 (fun n : nat => n) ident Nat.ltb (fun _ => 0) (fun _ _ => Fin 0%R) 100 args.
  Proof.
    destruct (C81_accepted parse1 (fun n : nat => n) ident Nat.ltb (fun _ => 0) pf ascii_decimal ascii_ok pint1 (fun _ _ => Fin 0%R) 100 fs1 os1 os1_acceptable) as (args & A & _ & Er).
    - intros N. discriminate (N (RAlgorithm [lit_str "voting"]) (or_introl eq_refl)).
    - intros N. discriminate (N (RDataset (lit_str "a.csv")) ltac:(cbn; tauto)).
    - exists args. split; [exact A|]. destruct A as (Aa & _ & _ & _ & As & _). split; [|split; [|exact Er]].
      + destruct Aa as (r & L & _ & H). rewrite (last_given_fun _ _ _ _ L os1_last) in H. clear - H. destruct (ra_classes args) as [|c1 [|c2 [|c3 cs]]]; try (repeat match goal with Q : Forall2 _ _ _ |- _ => inversion Q; clear Q; subst end; fail).
        assert (H1 : In (lit_str "sums", c1) label_table /\ In (lit_str "average_log", c2) label_table) by (repeat match goal with Q : Forall2 _ _ _ |- _ => inversion Q; clear Q; subst end; auto). destruct H1 as [H1 H3]. apply conv_cls_spec in H1, H3. vm_compute in H1, H3. injection H1 as <-. injection H3 as <-. reflexivity.
      + destruct (ra_sources args) as [l|]; [|discriminate (As (RSources [lit_str "2"]) ltac:(cbn; tauto))]. destruct As as (r & L & _ & H).
        assert (L2 : last_given o_sources os1 [lit_str "2"]). { exists [RAlgorithm [lit_str "voting"]; RParams [lit_str "iterator=fixed-7"; lit_str " g = 0.1"]; RDataset (lit_str "a.csv")], (RSources [lit_str "2"]), [RAlgorithm [lit_str "sums"; lit_str "average_log"]]. split; [reflexivity|]. split; [reflexivity|intros o [<-|[]]; reflexivity]. }
        rewrite (last_given_fun _ _ _ _ L L2) in H. inversion H as [|s c ls cs H1 H2]; subst. inversion H2. subst. vm_compute in H1. injection H1 as <-. reflexivity.
  Qed.
  (** an unknown label, a bad parameter, an unknown field, a missing file, accuracy without --supervised *)
  Example refused1 : snd (cli_run1 (os1 ++ [RAlgorithm [lit_str "sums"; lit_str "sum"]])) = UsageError. Proof. vm_compute. reflexivity. Qed.
  Example refused2 : snd (cli_run1 (RParams [lit_str "g"] :: os1)) = UsageError. Proof. vm_compute. reflexivity. Qed.
  Example refused3 : snd (cli_run1 (ROutput [lit_str "TRUST"] :: os1)) = UsageError. Proof. vm_compute. reflexivity. Qed.
  Example refused4 : snd (cli_run1 (RDataset (lit_str "b.csv") :: os1)) = UsageError. Proof. vm_compute. reflexivity. Qed.
  Example refused5 : accuracy_unsupervised (os1 ++ [ROutput [lit_str "trust"; lit_str "accuracy"]]).
  Proof. split; [cbn; intuition discriminate|]. exists [lit_str "trust"; lit_str "accuracy"]. split; [|cbn; tauto]. exists os1, (ROutput [lit_str "trust"; lit_str "accuracy"]), []. split; [reflexivity|]. split; [reflexivity|intros o []]. Qed.
  Definition pfs (s : pystr) : option XR := if beq s (lit_str "1") then Some (Fin 1%R) else if beq s (lit_str "0.5") then Some (Fin (1/2)%R) else None.
  (** synth --trust 0.5 1 --num-vars 2 *)
  Definition os2 : list synth_option := [STrust [lit_str "0.5"; lit_str "1"]; SNumVars (lit_str "2")].
  Example os2_acceptable : (forall o, In o os2 -> synth_acceptable pfs pint1 o) /\ ~ not_given o_trust os2 /\ synth_arguments pfs pint1 os2 (SynthArgs [Fin (1/2)%R; Fin 1%R] (Some 2%Z) None None) /\ valid_synth (SynthArgs [Fin (1/2)%R; Fin 1%R] (Some 2%Z) None None).
  Proof.
    split; [|split; [|split]].
    - intros o [<-|[<-|[]]]; cbn [synth_acceptable]; [|exists 2%Z; reflexivity]. split; [discriminate|]. intros s [<-|[<-|[]]]; eexists; reflexivity.
    - intros N. discriminate (N (STrust [lit_str "0.5"; lit_str "1"]) (or_introl eq_refl)).
    - split; [|split; [|split; intros o [<-|[<-|[]]]; reflexivity]].
      + exists [lit_str "0.5"; lit_str "1"]. split; [exists [], (STrust [lit_str "0.5"; lit_str "1"]), [SNumVars (lit_str "2")]; split; [reflexivity|]; split; [reflexivity|intros o [<-|[]]; reflexivity]|]. split; [discriminate|]. constructor; [reflexivity|]. constructor; [reflexivity|constructor].
      + exists (lit_str "2"). split; [exists [STrust [lit_str "0.5"; lit_str "1"]], (SNumVars (lit_str "2")), []; split; [reflexivity|]; split; [reflexivity|intros o []]|reflexivity].
    - split; [|split; [discriminate|split; [discriminate|intros n [= <-]; lia]]]. split; [discriminate|]. intros t [<-|[<-|[]]]; eexists; (split; [reflexivity|lra]).
  Qed.
  Example synth_refused1 : cli_synth pfs pint1 (fun _ => []) SynthExamples.g (STrust [lit_str "high"] :: os2) = SynthRefused.
  Proof. vm_compute. reflexivity. Qed.
  (** graph -o a.png -f a.csv --width 2 --one-indexed; and with the dataset as the output file *)
  Definition os3 (out : pystr) : list graph_option := [GOutfile out; GDataset (lit_str "a.csv"); GWidth (lit_str "2"); GOneIndexed].
  Example os3_acceptable out : all_acceptable pint1 (fun _ => true) fs1 (os3 out).
  Proof.
    intros pre o post Eo. destruct pre as [|o1 pre]; [injection Eo as <- _; reflexivity|]. injection Eo as <- Eo. destruct pre as [|o1 pre]; [injection Eo as <- _; left; vm_compute; discriminate|]. injection Eo as <- Eo.
    destruct pre as [|o1 pre]; [injection Eo as <- _; exists 2%Z; reflexivity|]. injection Eo as <- Eo. destruct pre as [|o1 pre]; [injection Eo as <- _; exact Logic.I|]. injection Eo as <- Eo. destruct pre; discriminate.
  Qed.
  Example os3_last out : last_given o_input (os3 out) (lit_str "a.csv") /\ last_given o_outfile (os3 out) out.
  Proof.
    split; [exists [GOutfile out], (GDataset (lit_str "a.csv")), [GWidth (lit_str "2"); GOneIndexed]|exists [], (GOutfile out), [GDataset (lit_str "a.csv"); GWidth (lit_str "2"); GOneIndexed]]; (split; [reflexivity|]; split; [reflexivity|]).
    - intros o [<-|[<-|[]]]; reflexivity.
    - intros o [<-|[<-|[<-|[]]]]; reflexivity.
  Qed.
  Example os3_size : (1 <= needed_height (Sizes 2 50 20 3 3 15) (get_triples (fun n : nat => n) m2) <= 32767)%Z.
  Proof. vm_compute. split; discriminate. Qed.
  (** the output file is emptied although the width is not a number *)
  Example graph_refused1 : all_acceptable pint1 (fun _ => true) fs1 [GOutfile (lit_str "a.csv")] /\ ~ graph_acceptable pint1 (fun _ => true) fs1 [GOutfile (lit_str "a.csv")] (GWidth (lit_str "wide")).
  Proof.
    split; [|intros [z Hz]; vm_compute in Hz; discriminate]. intros pre o post Eo. destruct pre as [|o1 pre]; [injection Eo as <- _; reflexivity|]. injection Eo as <- Eo. destruct pre; discriminate.
  Qed.
End ArgsExamples.
