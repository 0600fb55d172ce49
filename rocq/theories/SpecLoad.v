(* Specification of loading: what holds of every corpus a codec returns. *)
From Verif Require Import PyStr SpecRef Model SpecXml.

(* the members of one container: ids have the required form and differ *)
Definition ids_fine (l : list attrs) : Prop :=
  (forall a i, In a l -> a_id a = Some i -> accepted_id i) /\ NoDup (some_ids (map a_id l)).

Section SpecLoad.
Context {U : Unicode}.

Inductive child_names : mchild -> Prop :=
| Child_names n a t kids : (exists c r, n = c :: r /\ is_word c = true /\ is_digit c = false) -> a_id a = None ->
    Forall child_names kids -> child_names (MChild n a t kids).
Definition metadata_fine (m : metadata) : Prop :=
  ids_fine (map me_attrs (md_metas m)) /\ Forall (fun x => Forall child_names (me_kids x)) (md_metas m).
Definition metadatas_fine (l : list metadata) : Prop := ids_fine (map md_attrs l) /\ Forall metadata_fine l.
Definition tier_fine (t : tier) : Prop := metadatas_fine (t_md t) /\ ids_fine (map it_attrs (t_items t)).
Definition igt_fine (g : igt) : Prop :=
  metadatas_fine (g_md g) /\ ids_fine (map t_attrs (g_tiers g)) /\ Forall tier_fine (g_tiers g).
Definition corpus_fine (c : corpus) : Prop :=
  (forall i, a_id (c_attrs c) = Some i -> accepted_id i) /\ metadatas_fine (c_md c)
  /\ ids_fine (map g_attrs (c_igts c)) /\ Forall igt_fine (c_igts c).

End SpecLoad.
