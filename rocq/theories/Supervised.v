(** Model of SupervisedData.get_accuracy (input/supervised_data.py:25-63) and of input/synthetic_data.py. *)
From Verif Require Import Base Num Spec Dataset Iterators Algorithms Results PyStr Matrix.

(** * Accuracy *)
Inductive acc_err :=
| NoTrueValues           (* ValueError "No known true values" *)
| NoChoice               (* ValueError "No known variables where more than one claimed value exists" *)
| AccResult (e : rerr).  (* from get_most_believed_values, or IndexError of random.choice *)

Section Accuracy.
  Context {S V W : Type} {ES : Eqb S} {EV : Eqb V} {EW : Eqb W} {F : Num}.
  (** random.choice: the n-th draw of the program is [rnd n], reduced modulo the length of the list *)
  Variable rnd : nat -> nat.
  Definition random_choice (n : nat) (l : list W) : res acc_err W :=
    match nth_error l (rnd n mod length l) with Some w => Ok w | None => Err (AccResult RIndexError) end.

  (** the loop of get_accuracy over self.values.items() (supervised_data.py:45-59) *)
  Fixpoint acc_loop (r : result S V W F) (items : list (V * W)) (total count : nat) : res acc_err (nat * nat) :=
    match items with
    | [] => Ok (total, count)
    | (var_label, true_value) :: rest =>
        match dget (r_belief r) var_label with
        | None => acc_loop r rest total count
        | Some b =>
            if Nat.eqb (length b) 1 then acc_loop r rest total count
            else
              vals <- match get_most_believed_values r var_label with Ok l => Ok l | Err e => Err (AccResult e) end ;;
              most_believed <- random_choice total vals ;;
              acc_loop r rest (total + 1) (if beq most_believed true_value then count + 1 else count)
        end
    end.
  (** get_accuracy (supervised_data.py:25-63): (count, total), and the quotient that is returned *)
  Definition accuracy_counts (values : dict V W) (r : result S V W F) : res acc_err (nat * nat) :=
    match values with
    | [] => Err NoTrueValues
    | _ =>
        ' (total, count) <- acc_loop r values 0 0 ;;
        if Nat.eqb total 0 then Err NoChoice else Ok (count, total)
    end.
  Definition get_accuracy (values : dict V W) (r : result S V W F) : res acc_err F :=
    ' (count, total) <- accuracy_counts values r ;; Ok (n_div (n_ofZ (Z.of_nat count)) (n_ofZ (Z.of_nat total))).
End Accuracy.

(** * Synthetic data *)
Inductive syn_err :=
| BadTrustDim            (* "Trust vector must be one dimensional" *)
| EmptyTrust             (* "No trust values provided" *)
| BadTrust               (* "Trust values must be in [0, 1]" *)
| BadClaimProbability    (* "Claim probability must be in (0, 1]" *)
| BadDomainSize          (* "Domain size must be greater than 1" *)
| RandInt                (* ValueError of np.random.randint: negative size, or nothing to choose from *)
| BadProbabilities       (* ValueError of np.random.choice *)
| SynIndex.              (* IndexError *)

(** the argument [trust]: a one-dimensional array or list, or an array of another dimension *)
Inductive trust_arg (F : Type) := Trust1 (v : list F) | TrustN (ndim : nat).
Arguments Trust1 {F}. Arguments TrustN {F}.

Section Synthetic.
  Context {F : Num}.
  (** Random draws, numbered in the order in which the program makes them. *)
  Record rng := RNG {
    rn_int : nat -> nat;      (* reduced modulo the number of possible values *)
    rn_unif : nat -> F        (* a float in [0, 1) *)
  }.
  (** the tolerance of np.random.choice for the sum of p: sqrt(np.finfo(np.float64).eps) = 2^-26 *)
  Definition choice_atol : F := lit 1 67108864.

  (** np.random.randint(0, n) *)
  Definition randint (g : rng) (k : nat) (n : Z) : res syn_err nat :=
    if (n <=? 0)%Z then Err RandInt else Ok (rn_int g k mod Z.to_nat n).

  (** p.cumsum() *)
  Fixpoint cumsum (acc : F) (p : list F) : list F := match p with [] => [] | x :: t => n_add acc x :: cumsum (n_add acc x) t end.
  (** np.random.choice(range(len(p)), p=p), as numpy implements it: check p, cdf = p.cumsum(); cdf /= cdf[-1];
      cdf.searchsorted(random_sample(), side='right'), which is the number of entries <= the drawn number as cdf is sorted;
      then the item with that index, or IndexError.  (numpy adds with compensation in the check of the sum; plainly here.) *)
  Definition np_choice (g : rng) (k : nat) (p : list F) : res syn_err nat :=
    if negb (n_eqb (vsum p) (vsum p)) then Err BadProbabilities
    else if existsb (fun x => n_ltb x (n_ofZ 0)) p then Err BadProbabilities
    else if n_ltb choice_atol (n_abs (n_sub (vsum p) (n_ofZ 1))) then Err BadProbabilities
    else
      match cumsum (n_ofZ 0) p with
      | [] => Err BadProbabilities
      | c :: cs =>
          let cdf := map (fun x => n_div x (last cs c)) (c :: cs) in
          let idx := length (filter (fun x => n_leb x (rn_unif g k)) cdf) in
          if Nat.ltb idx (length p) then Ok idx else Err SynIndex
      end.

  (** SyntheticData.generate_claim (synthetic_data.py:72-88) *)
  Definition set_nth {A} (l : list A) (i : nat) (x : A) : list A := firstn i l ++ match skipn i l with [] => [] | _ :: t => x :: t end.
  Definition prob_dist (trust_val : F) (true_value domain_size : nat) : list F :=
    let wrong_prob := n_div (n_sub (n_ofZ 1) trust_val) (n_ofZ (Z.of_nat domain_size - 1)) in
    set_nth (repeat wrong_prob domain_size) true_value trust_val.
  Definition generate_claim (g : rng) (k : nat) (trust_val : F) (true_value domain_size : nat) : res syn_err nat :=
    np_choice g k (prob_dist trust_val true_value domain_size).

  (** sv_mat[source, var] = v *)
  Definition mset (m : matrix nat) (i j : nat) (v : nat) : matrix nat :=
    set_nth m i (set_nth (nth i m []) j (Some v)).

  (** The state of the construction: the matrix and the number of random draws made so far. *)
  Definition syn_state := (matrix nat * nat)%type.
  Section Loops.
    Variables (g : rng) (trust : list F) (true_values : list nat) (claim_probability : F) (domain_size : nat).
    (** sv_mat[source, var] = self.generate_claim(trust[source], true_values[var], domain_size) *)
    Definition put_claim (st : syn_state) (source var true_value : nat) : res syn_err syn_state :=
      match nth_error trust source with
      | None => Err SynIndex
      | Some t => v <- generate_claim g (snd st) t true_value domain_size ;; Ok (mset (fst st) source var v, snd st + 1)
      end.
    (** for source, trust_val in enumerate(trust) (synthetic_data.py:46-51); returns also claim_made *)
    Fixpoint source_loop (var true_value : nat) (sources : list nat) (claim_made : bool) (st : syn_state) : res syn_err (bool * syn_state) :=
      match sources with
      | [] => Ok (claim_made, st)
      | source :: rest =>
          let (m, k) := st in
          if n_leb (rn_unif g k) claim_probability then
            st' <- put_claim (m, k + 1) source var true_value ;; source_loop var true_value rest true st'
          else source_loop var true_value rest claim_made (m, k + 1)
      end.
    (** for var, true_value in enumerate(true_values) (synthetic_data.py:44-57) *)
    Fixpoint var_loop (vars : list (nat * nat)) (st : syn_state) : res syn_err syn_state :=
      match vars with
      | [] => Ok st
      | (var, true_value) :: rest =>
          ' (claim_made, st1) <- source_loop var true_value (seq 0 (length trust)) false st ;;
          if claim_made then var_loop rest st1
          else
            let (m, k) := st1 in
            source <- randint g k (Z.of_nat (length trust)) ;;
            st2 <- put_claim (m, k + 1) source var true_value ;;
            var_loop rest st2
      end.
    (** for source, row in enumerate(sv_mat): every source makes a claim (synthetic_data.py:60-65) *)
    Fixpoint fill_loop (num_variables : Z) (sources : list nat) (st : syn_state) : res syn_err syn_state :=
      match sources with
      | [] => Ok st
      | source :: rest =>
          let (m, k) := st in
          if forallb (fun c => match c with None => true | Some _ => false end) (nth source m []) then
            var <- randint g k num_variables ;;
            match nth_error true_values var with
            | None => Err SynIndex
            | Some tv => st' <- put_claim (m, k + 1) source var tv ;; fill_loop num_variables rest st'
            end
          else fill_loop num_variables rest st
      end.
  End Loops.

  (** true_values = np.random.randint(0, domain_size, size=(n,)) *)
  Definition draw_true_values (g : rng) (n domain_size : nat) : list nat := map (fun k => rn_int g k mod domain_size) (seq 0 n).

  (** SyntheticData.__init__ (synthetic_data.py:14-70) up to the call of the parent constructor: the matrix and the true
      values.  num_variables and domain_size are Python ints. *)
  Definition generate (g : rng) (trust : trust_arg F) (num_variables : Z) (claim_probability : F) (domain_size : Z) : res syn_err (matrix nat * list nat) :=
    match trust with
    | TrustN _ => Err BadTrustDim
    | Trust1 tr =>
        if Nat.eqb (length tr) 0 then Err EmptyTrust
        else if existsb (fun x => negb (n_eqb x x)) tr || existsb (fun x => n_ltb x (n_ofZ 0)) tr || existsb (fun x => n_ltb (n_ofZ 1) x) tr then Err BadTrust
        else if n_leb claim_probability (n_ofZ 0) || n_ltb (n_ofZ 1) claim_probability then Err BadClaimProbability
        else if (domain_size <=? 1)%Z then Err BadDomainSize
        else if (num_variables <? 0)%Z then Err RandInt
        else
          let n := Z.to_nat num_variables in
          let d := Z.to_nat domain_size in
          let tv := draw_true_values g n d in
          st1 <- var_loop g tr claim_probability d (enum_from 0 tv) (repeat (repeat None n) (length tr), n) ;;
          st2 <- fill_loop g tr tv d num_variables (seq 0 (length tr)) st1 ;;
          Ok (fst st2, tv)
    end.

  (** SyntheticData(...): matrix, dict of true values and dataset; values as numbers through [num_of] (the matrix is a
      float array) *)
  Definition true_dict (tv : list nat) : dict nat nat := enum_from 0 tv.

  (** SyntheticData.to_csv (synthetic_data.py:90-101): first row the true values, then the matrix *)
  Definition csv_matrix (m : matrix nat) (values : dict nat nat) : matrix nat :=
    map (fun j => dget values j) (seq 0 (length (hd [] m))) :: m.
End Synthetic.
Arguments rng : clear implicits.
