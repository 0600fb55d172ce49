(* Model of extend (xigt/mixins.py:115-117) and of the list properties when the
   argument is not a finished list but something that reads a container while
   the loop runs: a container object, or a selection of one (select,
   mixins.py:88-94, a lazy filter in Python 3).  Definitions only.

   The containers here are in mode FULL, so iterating one is reading its list
   by position (model.py:99-102; corpora in the other modes: see Iter.v). *)
From Verif Require Import PyStr Ref Container.

Section Live.
Context {U : Unicode} {B : Type}.
Notation state := (state (B := B)). Notation obj := (obj (B := B)).

(* what stands on the right of an assignment or is passed to extend *)
Inductive source :=
| SList (l : list nat)                    (* a list of its own *)
| SObj (k : nat)                          (* the container object k itself *)
| SSelect (k : nat) (p : obj -> bool)     (* k.select(...): the test is on attributes of the member *)
| SNone.                                  (* None *)

(* the loop of extend over the positions i, i+1, ... of container k': a list
   iterator looks at the list anew in every round, so it sees what was appended
   meanwhile.  No outcome: still running after so many rounds. *)
Fixpoint extend_from (fuel : nat) (s : state) (k k' : nat) (p : obj -> bool) (i : nat) : state * option outcome :=
  match fuel with
  | O => (s, None)
  | S fuel =>
    match nth_error (c_items (conts s k')) i with
    | None => (s, Some RNone)
    | Some a =>
      if p (objs s a)
      then match append s k a with
           | (s, RExn e) => (s, Some (RExn e))
           | (s, _) => extend_from fuel s k k' p (S i)
           end
      else extend_from fuel s k k' p (S i)
    end
  end.

(* extend, lines 115-117 *)
Definition extend_src (fuel : nat) (s : state) (k : nat) (v : source) : state * option outcome :=
  match v with
  | SList l => let '(s, r) := extend s k l in (s, Some r)
  | SObj k' => extend_from fuel s k k' (fun _ => true) 0
  | SSelect k' p => extend_from fuel s k k' p 0
  | SNone => (s, Some (RExn TypeError))
  end.

(* value or []: None and a container without members count as false, a filter
   object never does *)
Definition or_empty (s : state) (v : source) : source :=
  match v with
  | SNone => SList []
  | SObj k => match c_items (conts s k) with [] => SList [] | _ => v end
  | _ => v
  end.

(* the setters of igts, tiers, items (xigt/model.py:112-115, 198-201, 299-302)
   and of metas and children (xigt/metadata.py:114-117, 162-165, 203-206):
   clear, then extend(value or []) *)
Definition assign (fuel : nat) (s : state) (k : nat) (v : source) : state * option outcome :=
  let s := fst (clear s k) in extend_src fuel s k (or_empty s v).

(* the setter of metadata, xigt/metadata.py:36-42; k is the container _md,
   is_md tells which container objects are Metadata objects *)
Definition assign_metadata (is_md : nat -> bool) (fuel : nat) (s : state) (k : nat) (v : source) : state * option outcome :=
  let refused := match v with SObj k' => is_md k' | _ => false end in
  if refused then (s, Some (RExn XigtError))
  else extend_src fuel (fst (clear s k)) k v.

(* the getters: igts, tiers, items, metas, children give list(self)
   (model.py:109-111 and so on), metadata gives _md itself (metadata.py:33-35) *)
Definition get_copy (s : state) (k : nat) : source := SList (c_items (conts s k)).
Definition get_metadata (k : nat) : source := SObj k.

(* x.tiers += l: the getter, += on the plain list it gave, the setter *)
Definition iadd_copy (fuel : nat) (s : state) (k : nat) (l : list nat) : state * option outcome :=
  assign fuel s k (SList (c_items (conts s k) ++ l)).
(* x.metadata += l: the getter, the inherited list += on _md itself, the setter *)
Definition iadd_metadata (is_md : nat -> bool) (fuel : nat) (s : state) (k : nat) (l : list nat) : state * option outcome :=
  assign_metadata is_md fuel (fst (relist s k (fun m => m ++ l))) k (get_metadata k).
End Live.
