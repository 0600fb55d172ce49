(* Model of Item.value, Item.resolve_ref and Item.span, xigt/model.py:373-410,
   and of lookup by id in the trees of Model.v.  Definitions only. *)
From Verif Require Import PyStr Ref Model.

Section Value.
Context {U : Unicode}.

Definition item_id (i : item) : option str := a_id (it_attrs i).
Definition tier_id (t : tier) : option str := a_id (t_attrs t).
Definition igt_id (g : igt) : option str := a_id (g_attrs g).

(* container.get(k) for a string, xigt/mixins.py:50-60, 81-86: the member with
   that id; otherwise, if the string is an integer, the member at that position.
   The id index of a coherent container (Container.v, C03) finds the member
   with the id; container_get_agrees (ValueProofs.v) connects the two. *)
Definition find_id {A} (idof : A -> option str) (l : list A) (k : str) : option A :=
  find (fun x => opt_eqb str_eqb (idof x) (Some k)) l.
Definition container_get {A} (idof : A -> option str) (l : list A) (k : str) : option A :=
  match find_id idof l k with
  | Some x => Some x
  | None =>
    match py_int k with
    | Some z => match py_index (length l) z with Some n => nth_error l n | None => None end
    | None => None
    end
  end.

(* Item.resolve_ref, xigt/model.py:382-404.  [rec t i] is i.value() for an item
   of tier t; [t] and [g] are self.tier and self.tier.igt. *)
Definition resolve_ref (rec : tier -> item -> res (option str))
    (g : option igt) (t : option tier) (it : item) (ra : str) : res str :=
  match dget (a_dict (it_attrs it)) ra with
  | None => Err KeyError
  | Some e =>
    match t with
    | None => Err XigtStructureError
    | Some t =>
      match dget (a_dict (t_attrs t)) ra with
      | None => Err KeyError
      | Some rid =>
        match g with
        | None => Err XigtStructureError
        | Some g =>
          match container_get tier_id (g_tiers g) rid with
          | None => Err XigtStructureError
          | Some rt =>
            resolve (fun i => option_map (rec rt) (container_get item_id (t_items rt) i)) e
          end
        end
      end
    end
  end.

(* Item.value, xigt/model.py:373-380.  Out of fuel = RecursionError. *)
Definition value_refattrs : list str := [CONTENT; SEGMENTATION].
Fixpoint value (fuel : nat) (g : option igt) (t : option tier) (it : item) (refattrs : list str)
    : res (option str) :=
  match fuel with
  | 0 => Err RecursionError
  | S f =>
    match it_text it with
    | Some s => Ok (Some s)
    | None =>
      match find (dmem (a_dict (it_attrs it))) refattrs with
      | None => Ok None
      | Some ra =>
        do s <- resolve_ref (fun rt i => value f g (Some rt) i value_refattrs) g t it ra;
        Ok (Some s)
      end
    end
  end.

(* Item.span, xigt/model.py:406-410 *)
Definition item_span (fuel : nat) (g : option igt) (t : option tier) (it : item) (a b : option Z)
    : res (option str) :=
  do v <- value fuel g t it value_refattrs;
  Ok (option_map (py_slice a b) v).

End Value.
