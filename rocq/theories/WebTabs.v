(** Model of the results component of the web page: its tabs, panels and sections (ResultsController, static/app/app.js:304-443, and
    static/app/templates/results.html), and the filter with which the form shows the names of distance measures (app.js:445-453).  The tables
    and canvases inside a panel are modelled in WebView.v, the service in WebPage.v. *)
From Coq Require Import NArith String.
From Verif Require Import Base Num Spec Dataset Iterators Algorithms Results PyStr Regex Matrix Supervised Client Graph Front WebPage.

(** s.replace("_", " "): the first occurrence only *)
Fixpoint replace_first (c c' : pychar) (s : pystr) : pystr :=
  match s with [] => [] | x :: t => if N.eqb x c then c' :: t else x :: replace_first c c' t end.
(** c.toUpperCase() for a character of ASCII; it is used on the names of distance measures only *)
Definition upper_char (c : pychar) : pychar := if ((97 <=? c) && (c <=? 122))%N then (c - 32)%N else c.
(** formatDistanceMeasure (app.js:445-453); None is an exception: no_under[0] is undefined *)
Definition format_measure (input : pystr) : option pystr :=
  match replace_first 95%N 32%N input with [] => None | c :: t => Some (upper_char c :: t) end.

(** DATA.algorithm_labels (app.js:309), written into the page by the server: labels with display names *)
Definition algorithm_labels : dict pystr pystr := fst home_page.
(** String([name, label]), the key by which pairs.sort() compares; an undefined name gives nothing before the comma.  JavaScript compares
    UTF-16 units; for the labels there are this is the order of code points. *)
Definition pair_key (label : pystr) : pystr := match dget algorithm_labels label with Some name => name | None => [] end ++ lit_str "," ++ label.
(** getAvailableAlgorithmLabels (app.js:426-441), given the labels in the order in which for-in gives them *)
Definition available_labels (labels : list pystr) : list pystr := sort_with (fun l l' => str_ltb (pair_key l) (pair_key l')) labels.

(** the sections of a panel (app.js:312-317) *)
Inductive section := STrust | SBelief | SGraph | SAnimation.
Definition section_eqb (a b : section) : bool :=
  match a, b with STrust, STrust | SBelief, SBelief | SGraph, SGraph | SAnimation, SAnimation => true | _, _ => false end.
Inductive section_icon := ArrowDown | ArrowRight.

Section Tabs.
  Context {W : Type} {F : Num}.
  Notation entry := (web_entry (W:=W) (F:=F)).
  Notation service := (service W F).
  Notation press := (press F).
  Notation outcome := (outcome W F).
  Variable for_in : list pystr -> list pystr.          (* the order in which for (x in o) gives the keys of o *)
  (** the results component: the service it looks at, and $ctrl.output, which the panels share *)
  Record page := Page { pg_service : service; pg_output : section -> bool }.
  Definition new_page : page := Page new_service (fun _ => true).         (* app.js:311-317 *)
  (** getSectionIcon (app.js:401-403) *)
  Definition get_section_icon (pg : page) (s : section) : section_icon := if pg_output pg s then ArrowDown else ArrowRight.

  (** ** What is displayed *)
  (** the block with the results is displayed if state == 'has_results' (results.html:2) *)
  Definition displayed (pg : page) : bool := match sv_state (pg_service pg) with PHasResults => true | _ => false end.
  (** service.shown_results == label *)
  Definition is_shown (pg : page) (l : pystr) : bool := match sv_shown (pg_service pg) with Some l' => beq l' l | None => false end.
  (** the tabs, with what they say and whether they are marked as active (results.html:14-23).  An undefined name is shown as nothing. *)
  Definition tabs (pg : page) : list (pystr * pystr * bool) :=
    if displayed pg then
      map (fun l => (l, match dget algorithm_labels l with Some name => name | None => [] end, is_shown pg l))
        (match sv_results (pg_service pg) with Some data => available_labels (for_in (dkeys data)) | None => [] end)
    else [].
  (** the panels: there is one per label of algorithm_labels; the one of the algorithm shown is displayed (results.html:25-26) *)
  Definition panels (pg : page) : list pystr := if displayed pg then filter (is_shown pg) (dkeys algorithm_labels) else [].
  (** the results of a label; None is undefined *)
  Definition results_of (pg : page) (l : pystr) : option entry := match sv_results (pg_service pg) with Some data => dget data l | None => None end.
  (** {{ results[label].iterations || "N/A" }} (results.html:29); None is "N/A" *)
  Definition iterations_text (pg : page) (l : pystr) : option nat :=
    match results_of pg l with
    | Some e => match dget (we_fields e) FIterations with Some (VIterations (Some (S n))) => Some (S n) | _ => None end
    | None => None
    end.
  (** whether the panel of l has this section at all, and whether the section's contents are displayed (results.html:32-37, 73-78,
      118-123, 132-137) *)
  Definition has_section (pg : page) (l : pystr) (s : section) : bool :=
    match s with SAnimation => match results_of pg l with Some e => match we_animation e with Some _ => true | None => false end | None => false end | _ => true end.
  Definition section_open (pg : page) (l : pystr) (s : section) : bool := mem l (panels pg) && has_section pg l s && pg_output pg s.

  (** ** What a visitor does *)
  Inductive page_action := PressRun (p : press) | ClickTab (l : pystr) | ClickHeading (l : pystr) (s : section).
  (** it can only be done to what is displayed; the form is disabled while a request is under way *)
  Definition possible (pg : page) (x : page_action) : Prop :=
    match x with
    | PressRun _ => sv_state (pg_service pg) <> PLoading
    | ClickTab l => In l (map (fun t => fst (fst t)) (tabs pg))
    | ClickHeading l s => In l (panels pg) /\ has_section pg l s = true
    end.
  (** [run] is a press of the Run button.  The second component is what came of it. *)
  Definition act (run : service -> press -> outcome * service) (pg : page) (x : page_action) : page * option outcome :=
    match x with
    | PressRun p => let (o, sv) := run (pg_service pg) p in (Page sv (pg_output pg), Some o)
    | ClickTab l =>                                                                           (* results.html:19 *)
        let sv := pg_service pg in
        (Page (Service (sv_state sv) (sv_results sv) (Some l) (sv_messages sv) (sv_previous sv) (sv_error sv)) (pg_output pg), None)
    | ClickHeading _ s =>                                                                     (* results.html:33, 74, 119, 133 *)
        (Page (pg_service pg) (fun s' => if section_eqb s' s then negb (pg_output pg s') else pg_output pg s'), None)
    end.
End Tabs.
Arguments page : clear implicits. Arguments page_action : clear implicits.
