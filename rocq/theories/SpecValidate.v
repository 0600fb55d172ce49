(* Specification of validation: the report for a place in the corpus, the
   messages, and what the documentation says they mean. *)
From Verif Require Import PyStr Ref SpecRef Model Value SpecValue Validate.

(* the report of the corpus, igt, tier or item at a path of positions *)
Fixpoint report_at (r : report) (path : list nat) : option report :=
  match path with
  | [] => Some r
  | n :: path => match nth_error (report_kids r) n with Some k => report_at k path | None => None end
  end.
Definition records_at (r : report) (path : list nat) (l : list record) : Prop :=
  exists k, report_at r path = Some k /\ report_recs k = l.

Definition error (msg : str) : record := {| rec_level := 40; rec_msg := msg |}.
Definition warning (msg : str) : record := {| rec_level := 30; rec_msg := msg |}.

(* the object at a place *)
Definition tier_at (gs : list igt) (i j : nat) (g : igt) (t : tier) : Prop :=
  nth_error gs i = Some g /\ nth_error (g_tiers g) j = Some t.
Definition item_at (gs : list igt) (i j k : nat) (g : igt) (t : tier) (it : item) : Prop :=
  tier_at gs i j g t /\ nth_error (t_items t) k = Some it.

(* messages *)
Definition not_unique (name scope : str) : record :=
  error (L "The given id for each " ++ name ++ L " MUST be unique within its " ++ scope ++ L ".").
Definition no_such_tier (ra : str) : record :=
  error (L "The reference attribute """ ++ ra ++ L """ MUST select an available <tier> id.").
Definition unspecified (l : list str) : record :=
  error (L "Reference attributes on <item> elements MUST be specified on their <tier> as well. The following are not: " ++ join (L ", ") l).
Definition missing_prefix (ra : str) : str :=
  L "The """ ++ ra ++ L """ alignment expression MUST select available <item> ids from the aligned <tier> (""".
Definition missing_items (ra tid : str) (l : list str) : record :=
  error (missing_prefix ra ++ tid ++ L """). The following are unavailable: " ++ join (L ", ") l).
Definition bad_spans (l : list str) : record :=
  warning (L "Alignment expressions SHOULD select spans within the aligned <item> elements. The following spans are not valid: " ++ join (L ", ") l).
Definition overlap_prefix : str := L "Alignment expression spans SHOULD NOT overlap. Spans for the following <item> elements overlap: ".
Definition overlapping (l : list str) : record := warning (overlap_prefix ++ join (L ", ") l).

(* the id is given, and an earlier member of the sequence has it too *)
Definition repeats {A} (idof : A -> option str) (l : list A) (n : nat) : Prop :=
  exists i x m y, i <> [] /\ nth_error l n = Some x /\ idof x = Some i
    /\ m < n /\ nth_error l m = Some y /\ idof y = Some i.

Definition refattr (ra : str) : Prop := In ra [L "alignment"; L "segmentation"; L "content"].

(* the text is a position in a sequence of n members *)
Definition is_position {U : Unicode} (n : nat) (s : str) : Prop :=
  exists z, py_int s = Some z /\ (- Z.of_nat n <= z < Z.of_nat n)%Z.

(* an item has the reference attribute and its tier has not *)
Definition lacks (t : tier) (ra : str) : Prop :=
  refattr ra /\ attr (t_attrs t) ra = None /\ exists it, In it (t_items t) /\ attr (it_attrs it) ra <> None.

(* the ids an expression selects as a whole *)
Definition whole_ids (x : expr) : list str := map sl_id (filter (fun s => match sl_spans s with [] => true | _ => false end) x).

(* those of the ids that no item has, in order *)
Definition absent (items : list item) (l : list str) : list str :=
  filter (fun i => negb (existsb (fun it => opt_eqb str_eqb (item_id it) (Some i)) items)) l.

Definition no_braces (s : str) : Prop := ~ In (Ch "{") s /\ ~ In (Ch "}") s.

Section S.
Context {U : Unicode}.
Variable fuel : nat.

(* the value an item shows, when it has one *)
Definition shows (g : igt) (t : tier) (it : item) (v : str) : Prop :=
  value fuel (Some g) (Some t) it [L "content"; L "segmentation"] = Ok (Some v).

(* the item reference ra of it, with expression e, goes to tier rt *)
Definition refers (g : igt) (t : tier) (it : item) (ra e : str) (rt : tier) : Prop :=
  exists rid, attr (t_attrs t) ra = Some rid /\ rid <> [] /\ the_member tier_id (g_tiers g) rid rt
    /\ attr (it_attrs it) ra = Some e /\ e <> [] /\ t_items rt <> [].

(* an expression the checks can read: '+' or ',' between selections and spans,
   integer bounds, every item named has a value *)
Definition plain_delim (d : str) : Prop := d = [] \/ d = L "+" \/ d = L ",".
Definition plain (x : expr) : Prop :=
  wf x /\ Forall (fun s => plain_delim (sl_delim s) /\ Forall (fun sp => plain_delim (sp_delim sp)) (sl_spans s)) x
  /\ bounds_ok x.
Definition readable (g : igt) (rt : tier) (e : str) : Prop :=
  exists x, e = show x /\ plain x
    /\ forall s it, In s x -> the_member item_id (t_items rt) (sl_id s) it -> exists v, shows g rt it v.

(* a span [a:b] of an item with a value of length n leaves the value *)
Definition outside (n : nat) (sp : span) : bool :=
  match py_int (sp_start sp), py_int (sp_end sp) with
  | Some a, Some b => (Z.of_nat n <? a)%Z || (Z.of_nat n <? b)%Z
  | _, _ => false
  end.
(* a selection id[a:b] that leaves the item it names *)
Inductive outside_of (g : igt) (rt : tier) : sel -> Prop :=
| Outside s sp it v : sl_spans s = [sp] -> the_member item_id (t_items rt) (sl_id s) it -> shows g rt it v ->
    outside (length v) sp = true -> outside_of g rt s.

(* an id names at most one member *)
Definition unambiguous {A} (idof : A -> option str) (l : list A) (i : str) : Prop :=
  no_member idof l i \/ exists x, the_member idof l i x.

(* ids of items are well-formed and unique *)
Definition plain_ids (rt : tier) : Prop :=
  (forall i, unambiguous item_id (t_items rt) i)
  /\ (forall y i, In y (t_items rt) -> item_id y = Some i -> id_shape i).

(* the reference can be checked: it is absent, or names no tier or an empty
   one, or is readable *)
Definition checkable (g : igt) (t : tier) (it : item) (ra : str) : Prop :=
  attr (it_attrs it) ra = None \/ attr (t_attrs t) ra = None
  \/ exists rid e, attr (t_attrs t) ra = Some rid /\ attr (it_attrs it) ra = Some e
     /\ (rid = [] \/ e = [] \/ no_member tier_id (g_tiers g) rid /\ py_int rid = None
         \/ exists rt, the_member tier_id (g_tiers g) rid rt
            /\ (t_items rt = [] \/ readable g rt e /\ no_braces rid
                /\ plain_ids rt)).

End S.

(* the members of l with the property, in order *)
Inductive picks {A} (P : A -> Prop) : list A -> list A -> Prop :=
| P_nil : picks P [] []
| P_keep x l k : P x -> picks P l k -> picks P (x :: l) (x :: k)
| P_skip x l k : ~ P x -> picks P l k -> picks P (x :: l) k.

(* ---------- verdict ---------- *)

(* every record anywhere in the report is below the level *)
Definition all_below (level : Z) (r : report) : Prop :=
  forall path l x, records_at r path l -> In x l -> (rec_level x < level)%Z.

(* the ids of the corpora among the files *)
Definition given_ids (l : list file) : list str :=
  flat_map (fun f => match f with Loaded (Some i) _ _ => [i] | _ => [] end) l.
