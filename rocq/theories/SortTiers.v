(* Model of Igt.sort_tiers, xigt/model.py:221-241.  Definitions only.
   Simplifications: the reference attributes contain no ':' and nsmaps have no
   None key, so t.get_attribute(ra) is t.attributes[ra]. *)
From Verif Require Import PyStr PySort Model Value Index.

(* tuples of ints and tuples of such, compared as Python compares tuples *)
Definition lt2 (a b : nat * nat) : bool :=
  (fst a <? fst b) || (fst a =? fst b) && (snd a <? snd b).
Fixpoint key_lt (a b : list (nat * nat)) : bool :=
  match a, b with
  | [], [] => false
  | [], _ :: _ => true
  | _ :: _, [] => false
  | x :: a, y :: b => lt2 x y || negb (lt2 y x) && key_lt a b
  end.

(* {t.id: i+1 for i, t in enumerate(self)}, line 222 *)
Fixpoint tier_indices (i : nat) (l : list tier) (d : list (option str * nat)) : list (option str * nat) :=
  match l with
  | [] => d
  | t :: l => tier_indices (S i) l (dset_ okey_eqb d (tier_id t) i)
  end.

(* next(((ra, i) for i, ra in enumerate(refattrs) if ra in t.attributes), None), lines 225-229 *)
Fixpoint first_refattr (i : nat) (refattrs : list str) (t : tier) : option (str * nat) :=
  match refattrs with
  | [] => None
  | ra :: l => match dget (a_dict (t_attrs t)) ra with
               | Some v => Some (v, i)
               | None => first_refattr (S i) l t
               end
  end.
(* pr, lines 223-231 *)
Definition prioritized (refattrs : list str) (l : list tier) : list (option str * (str * nat)) :=
  fold_left (fun d t => match first_refattr 0 refattrs t with
                        | Some r => dset_ okey_eqb d (tier_id t) r
                        | None => d
                        end) l [].

(* the while loop, lines 236-238; None: still running *)
Fixpoint chain_key (fuel : nat) (idx : list (option str * nat)) (pr : list (option str * (str * nat)))
    (key : list (nat * nat)) (tmp : option (str * nat)) : option (res (list (nat * nat))) :=
  match fuel with
  | 0 => None
  | S f =>
    match tmp with
    | None => Some (Ok key)
    | Some (i, j) =>
      match dget_ okey_eqb idx (Some i) with
      | None => Some (Err KeyError)
      | Some n => chain_key f idx pr (key ++ [(n, j)]) (dget_ okey_eqb pr (Some i))
      end
    end
  end.
(* lines 234-239, for one tier; idx[t.id] is always there *)
Definition tier_key (fuel : nat) (idx : list (option str * nat)) (pr : list (option str * (str * nat))) (t : tier)
    : option (res (list (nat * nat))) :=
  match dget_ okey_eqb idx (tier_id t) with
  | None => Some (Err KeyError)
  | Some n =>
    match chain_key fuel idx pr [(n, 0)] (dget_ okey_eqb pr (tier_id t)) with
    | None => None
    | Some (Err e) => Some (Err e)
    | Some (Ok k) => Some (Ok (rev k))
    end
  end.
(* dfi, lines 232-239 *)
Fixpoint tier_keys (fuel : nat) (idx : list (option str * nat)) (pr : list (option str * (str * nat)))
    (l : list tier) (d : list (option str * list (nat * nat))) : option (res (list (option str * list (nat * nat)))) :=
  match l with
  | [] => Some (Ok d)
  | t :: l =>
    match tier_key fuel idx pr t with
    | None => None
    | Some (Err e) => Some (Err e)
    | Some (Ok k) => tier_keys fuel idx pr l (dset_ okey_eqb d (tier_id t) k)
    end
  end.
Definition dfi_of (d : list (option str * list (nat * nat))) (t : tier) : list (nat * nat) :=
  match dget_ okey_eqb d (tier_id t) with Some k => k | None => [] end.

(* sort_tiers; the result is the sorted list of tiers *)
Definition sort_tiers (fuel : nat) (g : igt) (refattrs : list str) : option (res (list tier)) :=
  let idx := tier_indices 1 (g_tiers g) [] in
  let pr := prioritized refattrs (g_tiers g) in
  match tier_keys fuel idx pr (g_tiers g) [] with
  | None => None
  | Some (Err e) => Some (Err e)
  | Some (Ok d) => Some (Ok (ssort (fun a b => key_lt (dfi_of d a) (dfi_of d b)) (g_tiers g)))
  end.
