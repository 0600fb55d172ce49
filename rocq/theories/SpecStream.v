(* Specification of reading and exporting igt by igt. *)
From Verif Require Import PyStr Model SpecXml Files Stream.

(* the igts of a corpus, with no error *)
Definition gives (st : stream) (c : corpus) : Prop :=
  st_corpus st = {| c_attrs := c_attrs c; c_md := c_md c; c_igts := [] |} /\ st_igts st = c_igts c /\ st_end st = None.
(* no two igts have the same id *)
Definition distinct (l : list igt) : Prop := NoDup (some_ids (map (fun g => a_id (g_attrs g)) l)).
(* how a run ends *)
Definition outcome (e : option exn) : res unit := match e with None => Ok tt | Some x => Err x end.
