(** Model of the service behind the web page: tdService of static/app/app.js:16-162 (the request sent for a press of the Run button, what
    is done with the answer) and MainformController.run (app.js:280-298).  Drawing the graphs and reformatting the scores for display
    (app.js:86-135) is modelled in WebView.v.  While a request is under way the form is disabled (form.html:5), so that there is never
    more than one. *)
From Coq Require Import NArith String.
From Verif Require Import Base Num Spec Dataset Iterators Algorithms Results PyStr Regex Matrix Supervised Client Graph Front.

(** n.toString() for an integer that is not negative *)
Fixpoint digits (fuel : nat) (n : N) : pystr :=
  match fuel with
  | O => []
  | S k => (if (n <? 10)%N then [] else digits k (n / 10)%N) ++ [(48 + n mod 10)%N]
  end.
Definition int_string (n : N) : pystr := digits (S (N.size_nat n)) n.

(** OutputFields.X.value (client/base.py:29-36) *)
Definition field_name (f : field) : pystr :=
  lit_str match f with
  | FAccuracy => "accuracy" | FBelief => "belief" | FBeliefStats => "belief_stats" | FIterations => "iterations"
  | FMostBelieved => "most_believed_values" | FTime => "time" | FTrust => "trust" | FTrustStats => "trust_stats"
  end%string.

Section Page.
  Context {W : Type} {F : Num}.
  Notation jval := (jval (F:=F)).
  Notation entry := (web_entry (W:=W) (F:=F)).
  Notation response := (response (W:=W) (F:=F)).
  Variable toFixed10 : F -> pystr.                    (* x.toFixed(10) *)
  Variable show_nat : nat -> pystr.                   (* the JSON keys of sources and variables ... *)
  Variable show_w : W -> pystr.                       (* ... and of values *)
  Variable json_w : W -> jval.                        (* a value, as JSON *)
  Variable stringify : jval -> pystr.                 (* JSON.stringify *)
  Variable first_key : list pystr -> option pystr.    (* Object.keys(o)[0], given the keys of the object *)

  (** $ctrl.algorithm: the string "sums" until the selection is changed (app.js:172; AngularJS writes the selected labels to it, as an
      array, when the selection changes), undefined when nothing is selected (form.html:15, "required") *)
  Inductive selected := SUndefined | SString (s : pystr) | SArray (labels : list pystr).
  (** $ctrl.iteration (app.js:175-180).  None is undefined: what AngularJS assigns when the field's text is not valid (form.html:141-142,
      164-165).  The number of iterations is an integer between 0 and 100 by the attributes of the field. *)
  Record iteration := Iteration { it_type : pystr; it_limit : option N; it_measure : pystr; it_threshold : option F }.
  (** getIterationString (app.js:147-161); None is an exception *)
  Definition get_iteration_string (it : iteration) : option pystr :=
    let value :=
      if beq (it_type it) (lit_str "fixed") then option_map (fun n => lit_str "fixed-" ++ int_string n) (it_limit it)
      else if beq (it_type it) (lit_str "convergence") then
        option_map (fun x => it_measure it ++ lit_str "-convergence-" ++ toFixed10 x ++ lit_str "-limit-100") (it_threshold it)
      else None in
    option_map (fun v => lit_str "iterator=" ++ v) value.

  (** a press of the Run button: the state of the form *)
  Record press := Press { pr_algorithm : selected; pr_matrix : pystr; pr_compare : bool; pr_iteration : iteration; pr_params : pystr }.
  Inductive page_state := PEmpty | PLoading | PHasResults.
  Inductive page_error := ServerError (r : response) | UnknownError.
  (** the service, and the error shown under the form *)
  Record service := Service {
    sv_state : page_state;
    sv_results : option (dict pystr entry);
    sv_shown : option pystr;
    sv_messages : list pystr;
    sv_previous : option (list (pystr * jval));
    sv_error : option page_error
  }.
  Definition new_service : service := Service PEmpty None None [] None None.       (* app.js:20-29, 171 *)

  (** algorithm !== "voting" *)
  Definition not_voting (a : selected) : bool := match a with SString s => negb (beq s (lit_str "voting")) | _ => true end.
  (** The request made by getResults (app.js:34-59); None is an exception.  AngularJS sends an array as one parameter per item and leaves
      out what is undefined. *)
  Definition make_request (previous : option (list (pystr * jval))) (p : press) : option request :=
    let alg_params :=
      if not_voting (pr_algorithm p) then
        option_map (fun s => (match pr_params p with [] => [] | t => t ++ [newline] end) ++ s) (get_iteration_string (pr_iteration p))
      else Some (pr_params p) in
    match alg_params with
    | None => None
    | Some alg_params =>
        Some (Request (match pr_algorithm p with SUndefined => [] | SString s => [s] | SArray l => l end) (Some (pr_matrix p))
                (match alg_params with [] => None | t => Some t end)
                (match pr_compare p, previous with true, Some o => Some (stringify (JvObj o)) | _, _ => None end))
    end.

  (** The entry of an algorithm in the answer, as the JSON object the page gets, without its imagery.  The order of the keys of objects is
      not modelled. *)
  Definition json_value (v : outval nat nat W F) : jval :=
    match v with
    | VTime t => JvNum t
    | VIterations n => match n with Some n => JvNum (n_ofZ (Z.of_nat n)) | None => JvNull end
    | VTrust t => JvObj (map (fun p => (show_nat (fst p), JvNum (snd p))) t)
    | VBelief b => JvObj (map (fun p => (show_nat (fst p), JvObj (map (fun q => (show_w (fst q), JvNum (snd q))) (snd p)))) b)
    | VTrustStats m s => JvObj [(lit_str "mean", JvNum m); (lit_str "stddev", JvNum s)]
    | VBeliefStats d => JvObj (map (fun p => (show_nat (fst p), JvObj [(lit_str "mean", JvNum (fst (snd p))); (lit_str "stddev", JvNum (snd (snd p)))])) d)
    | VAccuracy a => match a with Some x => JvNum x | None => JvNull end
    | VMostBelieved d => JvObj (map (fun p => (show_nat (fst p), JvArr (map json_w (snd p)))) d)
    end.
  Definition json_diff (df : web_diff (F:=F)) : jval :=
    JvObj [(lit_str "trust", JvObj (map (fun p => (fst p, JvNum (snd p))) (wd_trust df)));
           (lit_str "belief", JvObj (map (fun p => (fst p, JvObj (map (fun q => (fst q, JvNum (snd q))) (snd p)))) (wd_belief df)));
           (lit_str "time_taken", JvNum (wd_time df));
           (lit_str "iterations", match wd_iterations df with Some x => JvNum x | None => JvNull end)].
  Definition entry_json (e : entry) : list (pystr * jval) :=
    map (fun p => (field_name (fst p), json_value (snd p))) (we_fields e) ++ match we_diff e with Some df => [(lit_str "diff", json_diff df)] | None => [] end.

  (** What is done with the answer (app.js:61-84, 137-139, 285-297).  [NoResponse]: none has come yet. *)
  Definition handle_response (sv : service) (a : selected) (r : response) : service :=
    match r with
    | R200 data messages =>
        let shown := match sv_shown sv with Some l => if dmem data l then Some l else first_key (dkeys data) | None => first_key (dkeys data) end in
        (* algorithm.length == 1; no label is one character long, so that this is not so for a string *)
        let previous := match a with SArray [l] => option_map entry_json (dget data l) | _ => None end in
        Service PHasResults (Some data) shown messages previous None
    | NoResponse => Service PLoading (sv_results sv) (sv_shown sv) (sv_messages sv) (sv_previous sv) None
    | R400 _ | R500 => Service PEmpty (sv_results sv) (sv_shown sv) (sv_messages sv) (sv_previous sv) (Some (ServerError r))
    | Escaped _ => Service PEmpty (sv_results sv) (sv_shown sv) (sv_messages sv) (sv_previous sv) (Some UnknownError)     (* not a JSON object *)
    end.
  (** What came of a press: an exception in the page, or a request and its answer.  [server] is the server. *)
  Inductive outcome := Threw | Asked (q : request) (r : response).
  Definition press_run (server : request -> response) (sv : service) (p : press) : outcome * service :=
    match make_request (sv_previous sv) p with
    | None => (Threw, sv)
    | Some q => let r := server q in (Asked q r, handle_response sv (pr_algorithm p) r)
    end.
End Page.
Arguments press : clear implicits. Arguments iteration : clear implicits. Arguments service : clear implicits. Arguments outcome : clear implicits.
