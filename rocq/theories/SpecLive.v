(* Specification vocabulary for assigning and adding members from a source. *)
From Verif Require Import PyStr Ref Container SpecContainer Live.

Section Spec.
Context {U : Unicode} {B : Type}.
Notation state := (state (B := B)). Notation obj := (obj (B := B)).

(* what the source holds now *)
Definition holds (s : state) (v : source (B := B)) : list nat :=
  match v with
  | SList l => l
  | SObj k => members s k
  | SSelect k p => filter (fun a => p (objs s a)) (members s k)
  | SNone => []
  end.
(* the source reads container k while the loop runs *)
Definition reads (v : source (B := B)) (k : nat) : Prop :=
  match v with SObj k' => k' = k | SSelect k' _ => k' = k | _ => False end.
(* a selection does not test the parent of a member, which adding it changes *)
Definition blind (v : source (B := B)) : Prop :=
  match v with SSelect _ p => forall o q, p (set_parent o q) = p o | _ => True end.
(* rounds that suffice *)
Definition rounds (s : state) (v : source (B := B)) : nat :=
  match v with SObj k => length (members s k) | SSelect k _ => length (members s k) | _ => 0 end.

(* no two positions of a list of objects hold objects with the same id *)
Definition list_ids_unique (s : state) (l : list nat) : Prop :=
  forall p q a b i, nth_error l p = Some a -> nth_error l q = Some b ->
    the_id s a = Some i -> the_id s b = Some i -> p = q.
End Spec.
