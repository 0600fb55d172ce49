(* Model of XigtContainerMixin, xigt/mixins.py:29-142 (the list-with-id-index
   that XigtCorpus, Igt, Tier, Metadata, Meta and MetaChild inherit), as a
   state machine over a heap.  Definitions only.

   Objects live at addresses.  Of an object only what the container observes is
   kept: its id, its class, its _parent and an opaque body used by ==
   (simplification: == of two members is equality of class, id and body; each
   class's __eq__ in model.py / metadata.py compares at least the id).
   A container is identified by a number; an object's _parent is the number of
   a container's owner. *)
From Verif Require Import PyStr PySort Ref.

Notation addr := nat (only parsing).

Section Container.
Context {U : Unicode} {B : Type} (beq : B -> B -> bool).

Record obj := { o_id : option str; o_kind : nat; o_body : B; o_parent : option nat }.

(* c_type: _contained_type, None = anything; c_owner: _container, line 37 *)
Record cont := { c_items : list addr; c_dict : list (str * addr); c_type : option nat; c_owner : nat }.

Record state := { objs : addr -> obj; conts : nat -> cont }.

Definition upd {A} (f : nat -> A) (a : nat) (v : A) : nat -> A :=
  fun x => if Nat.eqb x a then v else f x.

Definition set_parent (o : obj) (p : nat) : obj :=
  {| o_id := o_id o; o_kind := o_kind o; o_body := o_body o; o_parent := Some p |}.
Definition with_id (o : obj) (i : option str) : obj :=
  {| o_id := i; o_kind := o_kind o; o_body := o_body o; o_parent := o_parent o |}.
Definition with_items (c : cont) (l : list addr) : cont :=
  {| c_items := l; c_dict := c_dict c; c_type := c_type c; c_owner := c_owner c |}.
Definition with_dict (c : cont) (d : list (str * addr)) : cont :=
  {| c_items := c_items c; c_dict := d; c_type := c_type c; c_owner := c_owner c |}.

Definition put_obj (s : state) (a : addr) (o : obj) : state :=
  {| objs := upd (objs s) a o; conts := conts s |}.
Definition put_cont (s : state) (k : nat) (c : cont) : state :=
  {| objs := objs s; conts := upd (conts s) k c |}.

(* == on two objects of the heap, as list.remove applies it: identity first *)
Definition same (s : state) (a b : addr) : bool :=
  Nat.eqb a b
  || (Nat.eqb (o_kind (objs s a)) (o_kind (objs s b))
      && opt_eqb str_eqb (o_id (objs s a)) (o_id (objs s b))
      && beq (o_body (objs s a)) (o_body (objs s b))).

(* ---------- keys and indices ---------- *)

(* the argument of c[...]: int, slice, str or None *)
Inductive key := KInt (z : Z) | KSlice (a b : option Z) | KStr (s : str) | KNone.

(* what a call returns *)
Inductive outcome := RNone | RObj (a : addr) | RList (l : list addr) | RExn (e : exn).

(* list.__getitem__(self, int) *)
Definition list_get (l : list addr) (z : Z) : res addr :=
  match py_index (length l) z with
  | Some n => match nth_error l n with Some a => Ok a | None => Err IndexError end
  | None => Err IndexError
  end.

(* __getitem__, lines 50-60 *)
Definition getitem (c : cont) (k : key) : res (addr + list addr) :=
  match k with
  | KInt z => do a <- list_get (c_items c) z; Ok (inl a)
  | KSlice i j => Ok (inr (py_slice i j (c_items c)))
  | KStr s =>
    match dget (c_dict c) s with
    | Some a => Ok (inl a)
    | None =>
      match py_int s with
      | Some z => do a <- list_get (c_items c) z; Ok (inl a)
      | None => Err KeyError
      end
    end
  | KNone => Err TypeError   (* int(None), line 57 *)
  end.

(* get, lines 81-86: None = the default *)
Definition get (c : cont) (k : key) : res (option (addr + list addr)) :=
  match getitem c k with
  | Ok v => Ok (Some v)
  | Err KeyError => Ok None
  | Err IndexError => Ok None
  | Err e => Err e
  end.

(* _assert_type, lines 96-101; subclassing is not modelled *)
Definition type_ok (c : cont) (o : obj) : bool :=
  match c_type c with None => true | Some t => Nat.eqb (o_kind o) t end.

(* _create_id_mapping, lines 131-137 *)
Definition create_id_mapping (c : cont) (a : addr) (o : obj) : res cont :=
  match o_id o with
  | None => Ok c
  | Some i =>
    if dmem (c_dict c) i then Err XigtError
    else Ok (with_dict c (dset (c_dict c) i a))
  end.

(* list.insert(self, i, obj): negative counts from the end, then clamp *)
Definition list_insert (l : list addr) (z : Z) (a : addr) : list addr :=
  let n := slice_bound (length l) z in firstn n l ++ a :: skipn n l.

(* list.__setitem__(self, n, obj) at a valid position *)
Definition list_set (l : list addr) (n : nat) (a : addr) : list addr :=
  firstn n l ++ a :: skipn (S n) l.

(* list.remove: first equal element, None = ValueError *)
Fixpoint list_remove (s : state) (a : addr) (l : list addr) : option (list addr) :=
  match l with
  | [] => None
  | b :: l' => if same s b a then Some l' else option_map (cons b) (list_remove s a l')
  end.

(* append lines 103-107 / insert lines 109-113: type check, parent, index, list *)
Definition add_at (s : state) (k : nat) (place : list addr -> list addr) (a : addr) : state * outcome :=
  let c := conts s k in
  let o := objs s a in
  if negb (type_ok c o) then (s, RExn XigtStructureError)
  else
    let s := put_obj s a (set_parent o (c_owner c)) in
    match create_id_mapping c a o with
    | Err e => (s, RExn e)
    | Ok c => (put_cont s k (with_items c (place (c_items c))), RNone)
    end.
Definition append (s : state) (k : nat) (a : addr) : state * outcome :=
  add_at s k (fun l => l ++ [a]) a.
Definition insert (s : state) (k : nat) (z : Z) (a : addr) : state * outcome :=
  add_at s k (fun l => list_insert l z a) a.

(* extend, lines 115-117; the argument is a finished list (other arguments:
   Live.v) *)
Fixpoint extend (s : state) (k : nat) (l : list addr) : state * outcome :=
  match l with
  | [] => (s, RNone)
  | a :: l' =>
    match append s k a with
    | (s, RExn e) => (s, RExn e)
    | (s, _) => extend s k l'
    end
  end.

(* remove, lines 119-123 *)
Definition remove (s : state) (k : nat) (a : addr) : state * outcome :=
  let c := conts s k in
  let del := match o_id (objs s a) with
             | None => Ok c
             | Some i => if dmem (c_dict c) i then Ok (with_dict c (ddel (c_dict c) i)) else Err KeyError
             end in
  match del with
  | Err e => (s, RExn e)
  | Ok c =>
    let s := put_cont s k c in
    match list_remove s a (c_items c) with
    | None => (s, RExn ValueError)
    | Some l => (put_cont s k (with_items c l), RNone)
    end
  end.

(* __delitem__, lines 76-79: a slice yields a plain list, which has no id *)
Definition delitem (s : state) (k : nat) (i : key) : state * outcome :=
  match getitem (conts s k) i with
  | Err e => (s, RExn e)
  | Ok (inl a) => remove s k a
  | Ok (inr _) => (s, RExn AttributeError)
  end.

(* lines 66-70: the index denoted by the key of an assignment *)
Definition set_index (i : key) : res (option Z) :=
  match i with
  | KInt z => Ok (Some z)
  | KSlice _ _ => Ok None
  | KStr t => match py_int t with Some z => Ok (Some z) | None => Err ValueError end
  | KNone => Err TypeError
  end.
(* __setitem__, lines 62-74 *)
Definition setitem (s : state) (k : nat) (i : key) (a : addr) : state * outcome :=
  let c := conts s k in
  let o := objs s a in
  if negb (type_ok c o) then (s, RExn XigtStructureError)
  else
    match set_index i with
    | Err e => (s, RExn e)
    | Ok None => (s, RExn AttributeError)   (* cur_obj is a list *)
    | Ok (Some z) =>
      match list_get (c_items c) z, py_index (length (c_items c)) z with
      | Ok cur, Some n =>
        let del := match o_id (objs s cur) with
                   | None => Ok c
                   | Some j => if dmem (c_dict c) j then Ok (with_dict c (ddel (c_dict c) j)) else Err KeyError
                   end in
        match del with
        | Err e => (s, RExn e)
        | Ok c =>
          match create_id_mapping c a o with
          | Err e => (put_cont s k c, RExn e)
          | Ok c => (put_cont s k (with_items c (list_set (c_items c) n a)), RNone)
          end
        end
      | _, _ => (s, RExn IndexError)
      end
    end.

(* clear, lines 125-129 *)
Definition clear (s : state) (k : nat) : state * outcome :=
  (put_cont s k (with_items (with_dict (conts s k) []) []), RNone).

(* refresh_index, lines 139-142 *)
Fixpoint refresh_loop (s : state) (c : cont) (l : list addr) : cont * outcome :=
  match l with
  | [] => (c, RNone)
  | a :: l' =>
    match create_id_mapping c a (objs s a) with
    | Err e => (c, RExn e)
    | Ok c => refresh_loop s c l'
    end
  end.
Definition refresh_index (s : state) (k : nat) : state * outcome :=
  let '(c, r) := refresh_loop s (with_dict (conts s k) []) (c_items (conts s k)) in
  (put_cont s k c, r).

(* the igts / tiers / items / metas / children property setters, e.g.
   xigt/model.py:112-115: clear, then extend *)
Definition assign_all (s : state) (k : nat) (l : list addr) : state * outcome :=
  extend (fst (clear s k)) k l.

(* ---------- operations ---------- *)

Inductive op :=
| OAppend (a : addr) | OInsert (z : Z) (a : addr) | OExtend (l : list addr)
| ORemove (a : addr) | OClear | OSet (i : key) (a : addr) | ODel (i : key)
| ORefresh | OAssign (l : list addr)
| OSort (key : addr -> Z)          (* inherited list.sort(key=...) *)
| OReverse                         (* inherited list.reverse() *)
| OSetId (a : addr) (i : option str)  (* obj.id = ..., lines 213-217 *)
| OPop (z : Z)                     (* inherited list.pop(i) *)
| OIadd (l : list addr).           (* inherited c += [...] *)

Definition relist (s : state) (k : nat) (f : list addr -> list addr) : state * outcome :=
  (put_cont s k (with_items (conts s k) (f (c_items (conts s k)))), RNone).

Definition step (s : state) (k : nat) (o : op) : state * outcome :=
  match o with
  | OAppend a => append s k a
  | OInsert z a => insert s k z a
  | OExtend l => extend s k l
  | ORemove a => remove s k a
  | OClear => clear s k
  | OSet i a => setitem s k i a
  | ODel i => delitem s k i
  | ORefresh => refresh_index s k
  | OAssign l => assign_all s k l
  | OSort key => relist s k (ssort (fun a b => Z.ltb (key a) (key b)))
  | OReverse => relist s k (@rev nat)
  | OSetId a i =>
    match i with
    | Some v => if id_accepted v then (put_obj s a (with_id (objs s a) i), RNone) else (s, RExn ValueError)
    | None => (put_obj s a (with_id (objs s a) None), RNone)
    end
  | OPop z =>
    match py_index (length (c_items (conts s k))) z with
    | Some n => match nth_error (c_items (conts s k)) n with
                | Some a => (fst (relist s k (fun l => firstn n l ++ skipn (S n) l)), RObj a)
                | None => (s, RExn IndexError)
                end
    | None => (s, RExn IndexError)
    end
  | OIadd l => relist s k (fun m => m ++ l)
  end.

(* a history: operations addressed to containers *)
Fixpoint run (s : state) (h : list (nat * op)) : state :=
  match h with
  | [] => s
  | (k, o) :: h' => run (fst (step s k o)) h'
  end.
Fixpoint outcomes (s : state) (h : list (nat * op)) : list outcome :=
  match h with
  | [] => []
  | (k, o) :: h' => snd (step s k o) :: outcomes (fst (step s k o)) h'
  end.

(* new containers are empty, line 34-37 *)
Definition empty_conts (s : state) : Prop :=
  forall k, c_items (conts s k) = [] /\ c_dict (conts s k) = [].

End Container.
