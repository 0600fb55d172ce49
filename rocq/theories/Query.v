(* Model of xigt/query.py.  Definitions only.  The generators are modelled by
   what they yield until they finish, raise, or run out of fuel. *)
From Verif Require Import PyStr Ref Model Value Index.

Inductive ending := Finished | Raised (e : exn) | Unfinished.
(* the yielded tuples (tier, refattr, reftier, refitems) *)
Record hop := { h_from : tier; h_ra : str; h_to : tier; h_items : list item }.

(* x in a set, for sets held as lists *)
Definition okey_mem (k : option str) (l : list (option str)) : bool := existsb (okey_eqb k) l.

Section Query.
Context {U : Unicode}.

(* ref.ids(item.attributes.get(refattr, '')) *)
Definition item_refs (it : item) (ra : str) : list str :=
  ids (match dget (a_dict (it_attrs it)) ra with Some e => e | None => [] end).

(* lines 21-26 and 59-64: the tier to start from and the items *)
Definition start_of (n : node) : tier * list item :=
  match n with NItem t i => (t, [i]) | NTier t => (t, t_items t) end.

(* item.id in ids, for an id that may be None *)
Definition id_in (o : option str) (l : list str) : bool :=
  match o with Some i => existsb (str_eqb i) l | None => false end.

(* visited.update(reftier.id), line 44: adds the characters of the string *)
Definition visited_update (visited : list (option str)) (i : str) : list (option str) :=
  map (fun c => Some [c]) i ++ visited.

(* the loop of ancestors, lines 30-46 *)
Fixpoint ancestors_from (fuel : nat) (g : igt) (x : index) (refattrs : list str)
    (visited : list (option str)) (t : tier) (items : list item) : list hop * ending :=
  match fuel with
  | 0 => ([], Unfinished)
  | S f =>
    match find (dmem (a_dict (t_attrs t))) refattrs with
    | None => ([], Finished)
    | Some [] => ([], Finished)                 (* not refattr *)
    | Some ra =>
      match dereference g x (NTier t) ra with
      | Err e => ([], Raised e)
      | Ok None => ([], Raised AttributeError)                 (* None.items *)
      | Ok (Some (NItem _ _)) => ([], Raised AttributeError)   (* items have no .items *)
      | Ok (Some (NTier rt)) =>
        let is := flat_map (fun it => item_refs it ra) items in
        let ritems := filter (fun it => id_in (item_id it) is) (t_items rt) in
        let h := {| h_from := t; h_ra := ra; h_to := rt; h_items := ritems |} in
        if okey_mem (tier_id rt) visited then ([h], Finished)
        else match tier_id rt with
             | None => ([h], Raised TypeError)   (* None is not iterable *)
             | Some i =>
               let '(hs, e) := ancestors_from f g x refattrs (visited_update visited i) rt ritems in
               (h :: hs, e)
             end
      end
    end
  end.
(* ancestors, lines 13-46 *)
Definition ancestors (fuel : nat) (g : igt) (x : index) (refattrs : list str) (n : node) : list hop * ending :=
  let '(t, items) := start_of n in
  ancestors_from fuel g x refattrs [tier_id t] t items.

(* tier.referrers(refattrs), xigt/mixins.py:266-271, xigt/model.py:215-219 *)
Definition tier_referrers (g : igt) (x : index) (t : tier) (refattrs : list str) : res refmap :=
  match g_tiers g with
  | [] => Err XigtError            (* an empty Igt is falsy *)
  | _ =>
    match tier_id t with
    | None | Some [] => Err XigtError
    | Some i => referrers g x i (Some refattrs)
    end
  end.
(* tier_refs[ra] *)
Definition refs_at (m : refmap) (ra : str) : list str := match dget m ra with Some l => l | None => [] end.

(* lines 85-93, for the ids that refer to the tier by one attribute *)
Fixpoint visit_ids (g : igt) (t : tier) (item_ids : list (option str)) (ra : str) (l : list str)
    : list hop * option exn :=
  match l with
  | [] => ([], None)
  | rid :: l =>
    match container_item tier_id (g_tiers g) rid with
    | Err e => ([], Some e)
    | Ok rt =>
      let ritems := filter (fun it => existsb (fun i => okey_mem (Some i) item_ids) (item_refs it ra)) (t_items rt) in
      let '(hs, e) := visit_ids g t item_ids ra l in
      ({| h_from := t; h_ra := ra; h_to := rt; h_items := ritems |} :: hs, e)
    end
  end.
Definition pair_eqb (a b : option str * str) : bool := okey_eqb (fst a) (fst b) && str_eqb (snd a) (snd b).
(* lines 79-93, for each followed attribute *)
Fixpoint visit_attrs (g : igt) (t : tier) (item_ids : list (option str)) (refs : refmap)
    (visited : list (option str * str)) (ras : list str) : list (option str * str) * list hop * option exn :=
  match ras with
  | [] => (visited, [], None)
  | ra :: ras =>
    if existsb (pair_eqb (tier_id t, ra)) visited then visit_attrs g t item_ids refs visited ras
    else
      match visit_ids g t item_ids ra (refs_at refs ra) with
      | (hs, Some e) => ((tier_id t, ra) :: visited, hs, Some e)
      | (hs, None) =>
        let '(v, hs', e) := visit_attrs g t item_ids refs ((tier_id t, ra) :: visited) ras in
        (v, hs ++ hs', e)
      end
  end.
(* the attributes to follow, lines 73-77; follow='first' or anything else *)
Definition followed (first : bool) (refs : refmap) (refattrs : list str) : list str :=
  let ras := filter (fun ra => match refs_at refs ra with [] => false | _ => true end) refattrs in
  if first then firstn 1 ras else ras.

(* the loop of descendants, lines 68-93 *)
Fixpoint descendants_from (fuel : nat) (g : igt) (x : index) (refattrs : list str) (first : bool)
    (visited : list (option str * str)) (agenda : list (tier * list item)) : list hop * ending :=
  match fuel with
  | 0 => ([], Unfinished)
  | S f =>
    match agenda with
    | [] => ([], Finished)
    | (t, items) :: agenda =>
      match tier_referrers g x t refattrs with
      | Err e => ([], Raised e)
      | Ok refs =>
        match visit_attrs g t (map item_id items) refs visited (followed first refs refattrs) with
        | (_, hs, Some e) => (hs, Raised e)
        | (v, hs, None) =>
          let '(hs', e) := descendants_from f g x refattrs first v
                             (agenda ++ map (fun h => (h_to h, h_items h)) hs) in
          (hs ++ hs', e)
        end
      end
    end
  end.
(* descendants, lines 49-93 *)
Definition descendants (fuel : nat) (g : igt) (x : index) (refattrs : list str) (first : bool) (n : node)
    : list hop * ending :=
  descendants_from fuel g x refattrs first [] [start_of n].

End Query.
