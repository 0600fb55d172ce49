(* Model of xigt sort as a whole, xigt/scripts/xigt_sort.py:11-33: the options, the
   keys found by paths, loading and saving.  Definitions only.

   Simplifications: [ix] and [vfuel] are those of Path.v.  While Python sorts a
   list, the list is empty for everybody else; here a path that climbs to the
   container of what is sorted sees its members in the order before.  Writing and
   parsing the text of the document is XmlStd.v. *)
From Verif Require Import PyStr Ref Model Index XmlStd Xml SortTiers Scripts Path.

(* the options; of the keys argparse gives None or a list with a member, of
   --tier-deps None or a string *)
Record sort_opts := {
  igt_key : option (list str);
  tier_key : option (list str);
  tier_deps : option str;
  item_key : option (list str) }.

(* s.split(c) for a one-character separator *)
Fixpoint split_on (c : N) (s : str) : list str :=
  match s with
  | [] => [[]]
  | x :: s =>
    if N.eqb x c then [] :: split_on c s
    else match split_on c s with w :: ws => (x :: w) :: ws | [] => [[x]] end
  end.

Section Command.
Context {U : Unicode}.
Variable ix : igt -> index.
Variable vfuel : nat.

(* xp.find(x, sk) or '', line 44, as the argument of re.split: a string; nothing,
   None and an empty list count as ''; any other object is a TypeError.  All
   objects but items are lists (mixins.py:29), empty if they have no members. *)
Definition found_text (v : option pval) : res (option str) :=
  match v with
  | None | Some VNone | Some (VList []) => Ok None
  | Some (VStr s) => Ok (Some s)
  | Some (VList _) => Err TypeError
  | Some (VNode n) => match members_of (n_obj n) with Some [] => Ok None | _ => Err TypeError end
  end.
Definition text_at (n : pnode) (path : str) : res (option str) := do v <- find ix vfuel (VNode n) path; found_text v.
(* make_sortkey, lines 35-45 *)
Definition key_at (paths : list str) (n : pnode) : res (list piece) := make_sortkey text_at paths n.

Definition igt_in (c : corpus) (g : igt) : pnode := {| n_obj := PIgt g; n_up := [PCorpus c] |}.
Definition tier_in (c : corpus) (g : igt) (t : tier) : pnode := {| n_obj := PTier t; n_up := [PIgt g; PCorpus c] |}.
Definition item_in (c : corpus) (g : igt) (t : tier) (i : item) : pnode := {| n_obj := PItem i; n_up := [PTier t; PIgt g; PCorpus c] |}.

(* lines 13-29; --tier-deps counts if it is not empty *)
Definition args_of (o : sort_opts) (c : corpus) : sort_args :=
  {| by_igt := option_map (fun l g => key_at l (igt_in c g)) (igt_key o);
     by_tier := option_map (fun l g t => key_at l (tier_in c g t)) (tier_key o);
     by_deps := match tier_deps o with
                | None | Some [] => None
                | Some s => Some (map strip (split_on (Ch ",") s))
                end;
     by_item := option_map (fun l g t i => key_at l (item_in c g t i)) (item_key o) |}.

(* lines 12-33: the document that is written *)
Definition sort_document (fuel ahead : nat) (o : sort_opts) (e : xelem) : res xelem :=
  do c <- xml_load ahead e;
  do c' <- sort_corpus fuel (args_of o c) c;
  xml_dump c' (Some 2).

(* a run: what is printed, or the exception, and the contents of the input file
   afterwards, lines 30-33.  dump opens the file when the elements are built
   (xigtxml.py:67-69); if writing them fails, the file is cut off: None.  (Here
   also if building them fails, though the file is not opened then.) *)
Definition run_sort (fuel ahead : nat) (o : sort_opts) (in_place : bool) (file : xelem) : res (option xelem) * option xelem :=
  match (do c <- xml_load ahead file; sort_corpus fuel (args_of o c) c) with
  | Err x => (Err x, Some file)
  | Ok c' =>
    match xml_dump c' (Some 2) with
    | Ok e => if in_place then (Ok None, Some e) else (Ok (Some e), Some file)
    | Err x => (Err x, if in_place then None else Some file)
    end
  end.

End Command.
