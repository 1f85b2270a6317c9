(** Model of truthdiscovery/output/result.py, output/diff.py and utils/__init__.py:filter_dict. *)
From Verif Require Import Base Num Spec Dataset Iterators Algorithms.

(** KeyError on an unknown label, IndexError on an empty list *)
Inductive rerr := RKeyError | RIndexError.

Section Results.
  Context {S V W : Type} {ES : Eqb S} {EV : Eqb V} {EW : Eqb W} {F : Num}.
  Notation result := (result S V W F).

  (** sorted(items, key=lambda x: -x[1]): Python's sort is stable, and a stable sort by keys that are totally ordered has
      only one possible outcome, computed here by insertion.  (With NaN keys the outcome would depend on the sorting
      algorithm; the theorems exclude NaN.) *)
  Fixpoint sort_insert {A} (key : A -> F) (x : A) (l : list A) : list A :=
    match l with
    | [] => [x]
    | y :: t => if n_ltb (key y) (key x) then y :: sort_insert key x t else x :: l
    end.
  Definition sort_by {A} (key : A -> F) (l : list A) : list A := fold_right (sort_insert key) [] l.
  (** for val, belief in sorted_beliefs: if belief < max_belief: break; yield val *)
  Fixpoint until_less (m : F) (l : list (W * F)) : list W :=
    match l with
    | [] => []
    | (val, belief) :: t => if n_ltb belief m then [] else val :: until_less m t
    end.
  (** Result.get_most_believed_values (result.py:28-42): the list of all values the generator yields.  The errors are
      raised when the generator is first advanced. *)
  Definition get_most_believed_values (r : result) (var : V) : res rerr (list W) :=
    match dget (r_belief r) var with
    | None => Err RKeyError
    | Some m =>
        let sorted_beliefs := sort_by (fun x => n_opp (snd x)) m in
        match sorted_beliefs with
        | [] => Err RIndexError
        | (_, max_belief) :: _ => Ok (until_less max_belief sorted_beliefs)
        end
    end.

  (** filter_dict (utils/__init__.py:10-18) *)
  Definition filter_dict {K X} `{Eqb K} (dct : dict K X) (keys : list K) : list (K * X) :=
    flat_map (fun key => match dget dct key with Some v => [(key, v)] | None => [] end) keys.
  (** Result.filter (result.py:44-66); the iterables are lists.  copy.deepcopy is the identity on values. *)
  Definition filter_scores {K X} `{Eqb K} (dct : dict K X) (keys : option (list K)) : dict K X :=
    match keys with Some ks => dict_of (filter_dict dct ks) | None => dct end.
  Definition result_filter (r : result) (srcs : option (list S)) (vars : option (list V)) : result :=
    Result (filter_scores (r_trust r) srcs) (filter_scores (r_belief r) vars) (r_time r) (r_iterations r).

  (** np.mean and np.std of a 1-d float array (result.py:68-75).  numpy adds pairwise in blocks; the sum is left to right
      here, so theorems about these are in exact arithmetic only. *)
  Definition np_mean (v : vec F) : F := n_div (vsum v) (n_ofZ (Z.of_nat (length v))).
  Definition np_std (v : vec F) : F :=
    let m := np_mean v in
    n_sqrt (n_div (vsum (map (fun x => let d := n_sub x m in n_mul d d) v)) (n_ofZ (Z.of_nat (length v)))).
  Definition get_stats {K} (scores : dict K F) : F * F :=
    let scores_vec := map snd scores in (np_mean scores_vec, np_std scores_vec).
  (** result.py:77-82 *)
  Definition get_trust_stats (r : result) : F * F := get_stats (r_trust r).
  (** result.py:84-92 *)
  Definition get_belief_stats (r : result) : dict V (F * F) := map (fun p => (fst p, get_stats (snd p))) (r_belief r).

  (** ResultDiff (diff.py:7-33) *)
  Record result_diff := ResultDiff {
    df_trust : dict S F;
    df_belief : dict V (dict W F);
    df_time : F;
    df_iterations : option Z
  }.
  (** set(a).intersection(b), iterated in an unspecified order: [order] is any function that permutes its argument *)
  Definition common {K} `{Eqb K} (order : list K -> list K) (a b : list K) : list K := order (distinct (filter (fun k => mem k b) a)).
  Definition diff_scores {K} `{Eqb K} (order : list K -> list K) (d1 d2 : dict K F) : dict K F :=
    dict_of (flat_map (fun k => match dget d1 k, dget d2 k with Some x, Some y => [(k, n_sub y x)] | _, _ => [] end)
               (common order (dkeys d1) (dkeys d2))).
  Definition make_diff (os : list S -> list S) (ov : list V -> list V) (ow : list W -> list W) (res1 res2 : result) : result_diff :=
    ResultDiff
      (diff_scores os (r_trust res1) (r_trust res2))
      (dict_of (flat_map (fun var =>
         match dget (r_belief res1) var, dget (r_belief res2) var with
         | Some b1, Some b2 => match diff_scores ow b1 b2 with [] => [] | diffs => [(var, diffs)] end
         | _, _ => []
         end) (common ov (dkeys (r_belief res1)) (dkeys (r_belief res2)))))
      (n_sub (r_time res2) (r_time res1))
      (match r_iterations res1, r_iterations res2 with
       | Some i1, Some i2 => Some (Z.of_nat i2 - Z.of_nat i1)%Z
       | _, _ => None
       end).
End Results.
Arguments result_diff : clear implicits.
