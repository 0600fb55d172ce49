(* Model of the reference indices of an Igt (xigt/model.py:122-219) and of the
   structural functions of xigt/ref.py:213-285.  Definitions only.
   Simplification: the tables _allowed_refattrs of Tier and Item hold only their
   default entry (extensions may add entries by type). *)
From Verif Require Import PyStr Ref Model Value.

Section Index.
Context {U : Unicode}.

(* a tier, or an item with the tier it belongs to *)
Inductive node := NTier (t : tier) | NItem (t : tier) (i : item).
Definition node_attrs (n : node) : attrs :=
  match n with NTier t => t_attrs t | NItem _ i => it_attrs i end.
Definition node_id (n : node) : option str := a_id (node_attrs n).

Definition tier_nodes (g : igt) : list node := map NTier (g_tiers g).
(* [i for t in self.tiers for i in t.items] *)
Definition item_nodes (g : igt) : list node := flat_map (fun t => map (NItem t) (t_items t)) (g_tiers g).

(* obj.allowed_reference_attributes(), model.py:304-309, 412-419 *)
Definition allowed_refattrs : list str := [ALIGNMENT; CONTENT; SEGMENTATION].

(* ids(obj.attributes.get(ra, '')) *)
Definition node_refs (n : node) (ra : str) : list str :=
  ids (match dget (a_dict (node_attrs n)) ra with Some e => e | None => [] end).

(* ---------- the cached tables ---------- *)

Definition refmap := dict (list str).   (* reference attribute -> ids *)
Record index := { x_items : list (option str * node);      (* _itemdict; None is a possible key *)
                  x_referents : dict refmap;               (* _referent_cache *)
                  x_referrers : dict refmap }.             (* _referrer_cache *)
Definition empty_index : index := {| x_items := []; x_referents := []; x_referrers := [] |}.

Definition okey_eqb (a b : option str) : bool := opt_eqb str_eqb a b.

(* lines 156-166; the comparison with the old entry only triggers a warning.
   The old table is extended, not replaced. *)
Definition refresh_items (old : list (option str * node)) (g : igt) : list (option str * node) :=
  fold_left (fun d n => dset_ okey_eqb d (node_id n) n) (item_nodes g) old.

(* lines 172-178 *)
Definition ids_map (g : igt) : dict refmap :=
  fold_left (fun d n =>
      match node_id n with
      | None => d
      | Some i => dset d i (map (fun ra => (ra, node_refs n ra)) allowed_refattrs)
      end) (tier_nodes g ++ item_nodes g) [].

(* inv_ids_map[ref_id][refattr].append(obj_id), line 188 *)
Definition inv_add (ra obj_id : str) (d : dict refmap) (ref_id : str) : dict refmap :=
  let m := match dget d ref_id with Some m => m | None => [] end in
  let l := match dget m ra with Some l => l | None => [] end in
  dset d ref_id (dset m ra (l ++ [obj_id])).
(* lines 184-189 *)
Definition invert (m : dict refmap) : dict refmap :=
  fold_left (fun d '(obj_id, ra_map) =>
      fold_left (fun d '(ra, ref_ids) => fold_left (inv_add ra obj_id) ref_ids d) ra_map d) m [].

(* refresh_indices with its default arguments, lines 151-189 *)
Definition refresh_indices (x : index) (g : igt) : index :=
  {| x_items := refresh_items (x_items x) g; x_referents := ids_map g; x_referrers := invert (ids_map g) |}.
(* Igt.__init__, lines 131-137 *)
Definition construct_index (g : igt) : index := refresh_indices empty_index g.

(* get_item, lines 203-204; the id is a string *)
Definition get_item (x : index) (k : str) : option node := dget_ okey_eqb (x_items x) (Some k).
(* get_any, lines 206-207 *)
Definition get_any (g : igt) (x : index) (k : str) : option node :=
  match container_get tier_id (g_tiers g) k with
  | Some t => Some (NTier t)
  | None => get_item x k
  end.

(* Igt.referents / referrers with refattrs=None, lines 211, 217 *)
Definition cached_referents (x : index) (k : str) : refmap :=
  match dget (x_referents x) k with Some m => m | None => [] end.
Definition cached_referrers (x : index) (k : str) : refmap :=
  match dget (x_referrers x) k with Some m => m | None => [] end.

(* ---------- xigt/ref.py ---------- *)

(* referents, lines 213-227.  The dict is built from the listed attributes. *)
Definition referents (g : igt) (x : index) (k : str) (refattrs : option (list str)) : res refmap :=
  match get_any g x k with
  | None => Err XigtLookupError
  | Some n =>
    let ras := match refattrs with Some l => l | None => allowed_refattrs end in
    Ok (fold_left (fun d ra => dset d ra (node_refs n ra)) ras [])
  end.

(* igt[id] for a string, xigt/mixins.py:50-60 *)
Definition container_item {A} (idof : A -> option str) (l : list A) (k : str) : res A :=
  match find_id idof l k with
  | Some x => Ok x
  | None =>
    match py_int k with
    | Some z => match py_index (length l) z with
                | Some n => match nth_error l n with Some x => Ok x | None => Err IndexError end
                | None => Err IndexError
                end
    | None => Err KeyError
    end
  end.

(* referrers, lines 253-264, for one other object *)
Definition add_referrer (k : str) (refattrs : option (list str)) (result : refmap) (other : node) : refmap :=
  match node_id other with
  | None => result
  | Some oid =>
    let ras := match refattrs with Some l => l | None => allowed_refattrs end in
    fold_left (fun result ra =>
        let l := match dget result ra with Some l => l | None => [] end in
        let result := dset result ra l in
        if existsb (str_eqb k) (node_refs other ra) then dset result ra (l ++ [oid]) else result)
      ras result
  end.
(* referrers, lines 230-265 *)
Definition referrers (g : igt) (x : index) (k : str) (refattrs : option (list str)) : res refmap :=
  let result := match refattrs with
                | Some l => fold_left (fun d ra => dset d ra []) l []
                | None => []
                end in
  do others <- match container_item tier_id (g_tiers g) k with
               | Ok _ => Ok (tier_nodes g)
               | Err KeyError => match get_item x k with
                                 | Some _ => Ok (item_nodes g)
                                 | None => Err XigtLookupError
                                 end
               | Err e => Err e
               end;
  Ok (fold_left (add_referrer k refattrs) others result).

(* dereference / dereference_all, lines 268-285, for a tier or item of g *)
Definition dereference (g : igt) (x : index) (n : node) (ra : str) : res (option node) :=
  match dget (a_dict (node_attrs n)) ra with
  | None => Err KeyError
  | Some e => match ids e with
              | [] => Err IndexError
              | i :: _ => Ok (get_any g x i)
              end
  end.
Definition dereference_all (g : igt) (x : index) (n : node) (ra : str) : res (list (option node)) :=
  match dget (a_dict (node_attrs n)) ra with
  | None => Err KeyError
  | Some e => Ok (map (get_any g x) (ids e))
  end.

End Index.
