(* Specification of item values: what an item refers to, and evaluation as a
   limit of fuelled runs. *)
From Verif Require Import PyStr SpecRef Model Value.

Section SpecValue.
Context {U : Unicode}.

(* x is the one member of l with id i *)
Definition the_member {A} (idof : A -> option str) (l : list A) (i : str) (x : A) : Prop :=
  In x l /\ idof x = Some i /\ forall y, In y l -> idof y = Some i -> y = x.
Definition no_member {A} (idof : A -> option str) (l : list A) (i : str) : Prop :=
  forall y, In y l -> idof y <> Some i.

Definition attr (a : attrs) (k : str) : option str := dget (a_dict a) k.

(* the reference an item without text resolves: content before segmentation *)
Definition first_ref (it : item) (ra : str) : Prop :=
  it_text it = None
  /\ (ra = L "content" /\ attr (it_attrs it) (L "content") <> None
      \/ ra = L "segmentation" /\ attr (it_attrs it) (L "content") = None
         /\ attr (it_attrs it) (L "segmentation") <> None).

(* the ids an expression can refer to: for a well-formed one the ids of its
   selections, otherwise any id that occurs in it *)
Definition refers_to (e i : str) : Prop :=
  (exists u v, e = u ++ i ++ v)
  /\ forall x : expr, wf_loose x -> e = show x -> In i (expr_ids x).

(* the tier a reference attribute names: the one with that id; failing that, an
   integer names a tier by position *)
Definition names_tier (g : igt) (rid : str) (t : tier) : Prop :=
  In t (g_tiers g)
  /\ (tier_id t = Some rid \/ no_member tier_id (g_tiers g) rid /\ py_int rid <> None).

(* computing the value of item it of tier t needs the value of it' of t' *)
Definition follows (g : igt) (p q : tier * item) : Prop :=
  exists ra e rid i, first_ref (snd p) ra
    /\ attr (it_attrs (snd p)) ra = Some e /\ attr (t_attrs (fst p)) ra = Some rid
    /\ names_tier g rid (fst q) /\ In (snd q) (t_items (fst q)) /\ item_id (snd q) = Some i
    /\ refers_to e i.

(* value() of an item in its tier and igt *)
Definition evaluates (g : igt) (t : tier) (it : item) (r : res (option str)) : Prop :=
  r <> Err RecursionError
  /\ exists n, forall m, n <= m -> value m (Some g) (Some t) it [L "content"; L "segmentation"] = r.
(* no amount of stack is enough *)
Definition overflows (g : igt) (t : tier) (it : item) : Prop :=
  forall m, value m (Some g) (Some t) it [L "content"; L "segmentation"] = Err RecursionError.

(* rho gives the values of the items of t that are named in l *)
Definition env_of (g : igt) (t : tier) (l : list str) (rho : str -> option (res (option str))) : Prop :=
  forall i, In i l ->
    no_member item_id (t_items t) i /\ rho i = None
    \/ exists it r, the_member item_id (t_items t) i it /\ evaluates g t it r /\ rho i = Some r.

(* nested segmentation: it selects [lo:hi] of the text base *)
Inductive segment (g : igt) (base : str) : tier -> item -> nat -> nat -> Prop :=
| Seg_base t it : it_text it = Some base -> segment g base t it 0 (length base)
| Seg_step t it rid rt i it' lo hi c d :
    it_text it = None -> attr (it_attrs it) (L "content") = None ->
    attr (t_attrs t) (L "segmentation") = Some rid -> the_member tier_id (g_tiers g) rid rt ->
    id_shape i -> the_member item_id (t_items rt) i it' ->
    attr (it_attrs it) (L "segmentation")
      = Some (i ++ L "[" ++ dec_nat c ++ L ":" ++ dec_nat d ++ L "]") ->
    segment g base rt it' lo hi ->
    segment g base t it (lo + c) (Nat.min (lo + d) hi).

(* the characters at positions lo <= p < hi *)
Definition substring (lo hi : nat) (s : str) : str := firstn (hi - lo) (skipn lo s).

End SpecValue.
