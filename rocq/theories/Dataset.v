(** Model of truthdiscovery/input/dataset.py. *)
From Verif Require Import Base Num Sparse Spec.

(** ** IDMapping (dataset.py:7-21), a bidict.  A bidict is a dict with distinct values. *)
Section IDMapping.
  Context {L : Type} {EL : Eqb L}.
  Definition idmap := list (L * nat).
  (* bidict.__setitem__ on a new key: ValueDuplicationError (None) if the value is already used *)
  Definition bd_put (m : idmap) (l : L) (i : nat) : option idmap :=
    if mem i (map snd m) then None else Some (m ++ [(l, i)]).
  (* bidict.inverse[i] *)
  Definition inverse (m : idmap) (i : nat) : option L := option_map fst (find (fun p => Nat.eqb (snd p) i) m).
  (* dataset.py:11-21, get_id with insert=True: returns the updated mapping and the id.  None: ValueDuplicationError or
     KeyError. *)
  Definition get_id (m : idmap) (l : L) : option (idmap * nat) :=
    match (if mem l (map fst m) then Some m else bd_put m l (length m)) with
    | None => None
    | Some m' => match dget m' l with Some i => Some (m', i) | None => None end
    end.
  (* dataset.py:11-21, get_id with insert=False: None is the KeyError *)
  Definition get_id_noinsert (m : idmap) (l : L) : option nat := dget m l.
End IDMapping.
Arguments idmap : clear implicits.

Inductive derr (S V : Type) :=
| MultipleClaims (s : S) (x : V)     (* ValueError of dataset.py:94-98, naming s and x *)
| BadImplication                    (* ValueError of dataset.py:154-157 *)
| IdError                           (* KeyError / ValueDuplicationError from a bidict: shown impossible *)
| IndexErr.                         (* scipy ValueError for an index outside the shape: shown impossible *)
Arguments MultipleClaims {S V}. Arguments BadImplication {S V}. Arguments IdError {S V}. Arguments IndexErr {S V}.

Definition of_opt {E A} (e : E) (o : option A) : res E A := match o with Some a => Ok a | None => Err e end.

Section Dataset.
  Context {S V W : Type} {ES : Eqb S} {EV : Eqb V} {EW : Eqb W} {F : Num}.
  Notation triple := (S * V * W)%type.
  Notation claim := (V * W)%type.

  (** Local variables and attributes of the constructor while it reads the triples (dataset.py:63-82). *)
  Record dstate := DState {
    d_source_ids : idmap S;
    d_var_ids : idmap V;
    d_val_hashes : idmap W;
    d_claim_ids : idmap (nat * nat);
    d_pairs : list (nat * nat);              (* keys of source_var_pairs *)
    d_sc : list (nat * nat);                 (* zip(sc_rows, sc_cols) *)
    d_mut : dict nat (list nat)              (* mut_ex_claims; a set of claim ids is a duplicate-free list *)
  }.
  Definition dinit : dstate := DState [] [] [] [] [] [] [].

  (* set.add *)
  Definition set_add (i : nat) (l : list nat) : list nat := if mem i l then l else l ++ [i].

  (** One round of the loop over the triples (dataset.py:84-107). *)
  Definition dstep (allow_multiple : bool) (st : dstate) (t : triple) : res (derr S V) dstate :=
    ' (sids, s_id) <- of_opt IdError (get_id (d_source_ids st) (t_src t)) ;;
    ' (vids, var_id) <- of_opt IdError (get_id (d_var_ids st) (t_var t)) ;;
    ' (hids, val_hash) <- of_opt IdError (get_id (d_val_hashes st) (t_val t)) ;;
    if mem (s_id, var_id) (d_pairs st) then
      if allow_multiple then
        Ok (DState sids vids hids (d_claim_ids st) (d_pairs st) (d_sc st) (d_mut st))
      else
        s <- of_opt IdError (inverse sids s_id) ;;
        x <- of_opt IdError (inverse vids var_id) ;;
        Err (MultipleClaims s x)
    else
      ' (cids, claim_id) <- of_opt IdError (get_id (d_claim_ids st) (var_id, val_hash)) ;;
      let mut := if dmem (d_mut st) var_id then d_mut st else dset (d_mut st) var_id [] in
      cs <- of_opt IdError (dget mut var_id) ;;
      Ok (DState sids vids hids cids (d_pairs st ++ [(s_id, var_id)]) (d_sc st ++ [(s_id, claim_id)])
            (dset mut var_id (set_add claim_id cs))).

  Fixpoint dloop (allow_multiple : bool) (st : dstate) (ts : list triple) : res (derr S V) dstate :=
    match ts with
    | [] => Ok st
    | t :: r => st' <- dstep allow_multiple st t ;; dloop allow_multiple st' r
    end.

  Record dataset := Dataset {
    source_ids : idmap S;
    var_ids : idmap V;
    val_hashes : idmap W;
    claim_ids : idmap (nat * nat);
    num_sources : nat;
    num_variables : nat;
    num_claims : nat;
    sc : mat F;
    mut_ex : mat F;
    imp : mat F
  }.

  (* csr_matrix((data, (rows, cols)), shape=(r, c)) with scipy's check that the indices are inside the shape *)
  Definition csr_chk (r c : nat) (l : list ((nat * nat) * F)) : res (derr S V) (mat F) :=
    if forallb (fun e => Nat.ltb (fst (fst e)) r && Nat.ltb (snd (fst e)) c) l then Ok (csr_of r c l) else Err IndexErr.

  (** dataset.py:139-160: one implication entry for claims j1, j2 of the same variable *)
  Definition imp_entry (impf : V -> W -> W -> option F) (st : dstate) (j : nat * nat)
    : res (derr S V) (list ((nat * nat) * F)) :=
    if Nat.eqb (fst j) (snd j) then Ok []
    else
      ' (var_id, val1_hash) <- of_opt IdError (inverse (d_claim_ids st) (fst j)) ;;
      ' (_, val2_hash) <- of_opt IdError (inverse (d_claim_ids st) (snd j)) ;;
      x <- of_opt IdError (inverse (d_var_ids st) var_id) ;;
      val1 <- of_opt IdError (inverse (d_val_hashes st) val1_hash) ;;
      val2 <- of_opt IdError (inverse (d_val_hashes st) val2_hash) ;;
      match impf x val1 val2 with
      | None => Ok []
      | Some q =>
          if n_ltb q (n_ofZ (-1)) || n_ltb (n_ofZ 1) q then Err BadImplication else Ok [(j, q)]
      end.

  (** Dataset.__init__ (dataset.py:49-170).  The triples are an arbitrary iterable that is traversed once: a list.
      [impf] is None when no implication function is given; exceptions raised by the user's function itself are not
      modelled. *)
  Definition build (allow_multiple : bool) (impf : option (V -> W -> W -> option F)) (ts : list triple)
    : res (derr S V) dataset :=
    st <- dloop allow_multiple dinit ts ;;
    let ns := length (d_source_ids st) in
    let nv := length (d_var_ids st) in
    let nc := length (d_claim_ids st) in
    scm <- csr_chk ns nc (map (fun e => (e, n_ofZ 1)) (d_sc st)) ;;
    mutm <- csr_chk nc nc
              (map (fun e => (e, n_ofZ 1)) (flat_map (fun kv => list_prod (snd kv) (snd kv)) (d_mut st))) ;;
    entries <- match impf with
               | None => Ok []
               | Some f => ls <- mapM (imp_entry f st) (nonzero mutm) ;; Ok (concat ls)
               end ;;
    impm <- match entries with [] => Ok (csr_empty nc nc) | _ => csr_chk nc nc entries end ;;
    Ok (Dataset (d_source_ids st) (d_var_ids st) (d_val_hashes st) (d_claim_ids st) ns nv nc scm mutm impm).

  (** get_belief_dict (dataset.py:172-189).  None is a KeyError (score vector longer than the number of claims). *)
  Fixpoint belief_dict_from {T} (d : dataset) (l : list (nat * T)) (acc : dict V (dict W T)) : option (dict V (dict W T)) :=
    match l with
    | [] => Some acc
    | (claim_id, belief_score) :: r =>
        match inverse (claim_ids d) claim_id with
        | None => None
        | Some (var_id, val_hash) =>
            match inverse (var_ids d) var_id, inverse (val_hashes d) val_hash with
            | Some var_label, Some val =>
                let acc := if dmem acc var_label then acc else dset acc var_label [] in
                match dget acc var_label with
                | None => None
                | Some inner => belief_dict_from d r (dset acc var_label (dset inner val belief_score))
                end
            | _, _ => None
            end
        end
    end.
  Definition get_belief_dict {T} (d : dataset) (claim_beliefs : list T) : option (dict V (dict W T)) :=
    belief_dict_from d (enumerate claim_beliefs) [].

  (** get_source_trust_dict (dataset.py:191-200), a dict comprehension *)
  Fixpoint trust_dict_from {T} (d : dataset) (l : list (nat * T)) (acc : dict S T) : option (dict S T) :=
    match l with
    | [] => Some acc
    | (i, trust_val) :: r =>
        match inverse (source_ids d) i with
        | None => None
        | Some s => trust_dict_from d r (dset acc s trust_val)
        end
    end.
  Definition get_source_trust_dict {T} (d : dataset) (trust : list T) : option (dict S T) :=
    trust_dict_from d (enumerate trust) [].

  (** num_connected_components (dataset.py:202-229).  None is a KeyError. *)
  Definition row_vars (d : dataset) (i : nat) : option (list nat) :=
    let js := filter (fun j => m_stored (sc d) i j && negb (n_eqb (m_entry (sc d) i j) (n_ofZ 0))) (seq 0 (m_cols (sc d))) in
    fold_right (fun j acc => match inverse (claim_ids d) j, acc with
                             | Some (var_id, _), Some l => Some (var_id :: l)
                             | _, _ => None end) (Some []) js.
  Fixpoint comps_from (d : dataset) (rows : list nat) (seen : list nat) (comps : nat) : option nat :=
    match rows with
    | [] => Some comps
    | i :: r =>
        match row_vars d i with
        | None => None
        | Some vs =>
            let comps' := if existsb (fun v => mem v seen) vs then comps else Datatypes.S comps in
            comps_from d r (seen ++ vs) comps'
        end
    end.
  Definition num_connected_components (d : dataset) : option nat :=
    comps_from d (seq 0 (m_rows (sc d))) [] 0.
End Dataset.
Arguments dstate : clear implicits. Arguments dataset : clear implicits.
