(* Specification of the output of validate: the places of a report in document
   order, and what is shown for each; and the exact records of a place. *)
From Verif Require Import PyStr Ref Model Value SpecValue Validate SpecValidate Report.

(* the places of a report, parents before children, with their depth *)
Fixpoint places (depth : nat) (r : report) : list (nat * report) :=
  match r with Report _ kids _ _ => (depth, r) :: flat_map (places (S depth)) kids end.

Definition level_name (depth : nat) : str := nth depth [L "corpus"; L "igt"; L "tier"; L "item"] [].
Definition bold (s : str) : str := [27%N] ++ L "[1m" ++ s ++ [27%N] ++ L "[0m".
Definition coloured (level : Z) (s : str) : str :=
  [27%N] ++ (if (level =? 40)%Z then L "[31m" else if (level =? 30)%Z then L "[33m" else L "[37m") ++ s ++ [27%N] ++ L "[0m".
Definition heading (color : bool) (depth : nat) (index : nat) (i : option str) : str :=
  let h := repeat (Ch " ") depth ++ level_name depth ++ L " " ++ dec_nat index ++ L " "
           ++ match i with Some (c :: i) => L "(id: """ ++ (c :: i) ++ L """)" | _ => [] end in
  if color then bold h else h.
Definition message (color : bool) (depth : nat) (x : record) : str :=
  let m := repeat (Ch " ") depth ++ L " * " ++ rec_msg x in if color then coloured (rec_level x) m else m.

(* what is shown for a place: nothing if nothing at or below it is serious
   enough; else its heading and its serious records *)
Definition shown_for (color : bool) (m : Z) (p : nat * report) (ls : list line) : Prop :=
  let (depth, r) := p in
  all_below m r /\ ls = []
  \/ ~ all_below m r
     /\ exists i n l, r = Report (report_recs r) (report_kids r) i n
        /\ picks (fun x => (m <= rec_level x)%Z) (report_recs r) l
        /\ ls = Printed (heading color depth n i) :: map (fun x => Logged (message color depth x)) l.
Definition shown (color : bool) (m : Z) (depth : nat) (r : report) (out : list line) : Prop :=
  exists ls, Forall2 (shown_for color m) (places depth r) ls /\ out = concat ls.

(* reports made by validation: four levels, three kinds of record *)
Definition proper (depth : nat) (r : report) : Prop :=
  forall d r' x, In (d, r') (places depth r) -> d < 4 /\ (In x (report_recs r') -> In (rec_level x) [20; 30; 40]%Z).

(* the report mirrors the corpus: ids and positions *)
Definition report_is (r : report) (path : list nat) (i : option str) (n : nat) : Prop :=
  exists recs kids, report_at r path = Some (Report recs kids i n).

(* the record is there exactly if the condition holds *)
Definition exactly (P : Prop) (x : record) (l : list record) : Prop := P /\ l = [x] \/ ~ P /\ l = [].
Definition no_value (i : option str) : Prop := i = None \/ i = Some [].
Definition needs (level : Z) (what verb name : str) : record :=
  {| rec_level := level; rec_msg := L "Each " ++ name ++ L " " ++ verb ++ L " specify " ++ what ++ L "." |}.
Definition no_tier {U : Unicode} (g : igt) (t : tier) (ra : str) : Prop :=
  exists rid, attr (t_attrs t) ra = Some rid /\ rid <> []
    /\ no_member tier_id (g_tiers g) rid /\ ~ is_position (length (g_tiers g)) rid.

(* what validating each of the files shows, and whether it passed *)
Inductive ran {U : Unicode} (fuel : nat) (color : bool) (m : Z) : nat -> list str -> list (str * file) -> list (list line) -> list bool -> Prop :=
| R_nil n idset : ran fuel color m n idset [] [] []
| R_unparsable n idset name l outs bs : ran fuel color m (S n) idset l outs bs ->
    ran fuel color m n idset ((name, Unparsable) :: l)
      ([Printed (L "Corpus " ++ dec_nat n ++ L " (" ++ name
         ++ L ") failed to load. First verify that the XML file is valid by doing a schema validation.")] :: outs) bs
| R_loaded n idset name ci gs l r out b outs bs : validate_corpus fuel ci gs None n idset = Ok r -> shown color m 0 r out ->
    (b = true <-> all_below m r) ->
    ran fuel color m (S n) (idset ++ match ci with Some i => [i] | None => [] end) l outs bs ->
    ran fuel color m n idset ((name, Loaded ci gs None) :: l) (out :: outs) (b :: bs).
(* a file that stops the run *)
Inductive fails {U : Unicode} (fuel n : nat) (idset : list str) : file -> exn -> Prop :=
| F_read e : fails fuel n idset (Unreadable e) e
| F_validate ci gs end_ e : validate_corpus fuel ci gs end_ n idset = Err e -> fails fuel n idset (Loaded ci gs end_) e.
