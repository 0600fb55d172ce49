(* C65: assigning members puts exactly the given ones in their place. *)
From Verif Require Import PyStr Ref SpecRef Container SpecContainer ContainerExamples Live SpecLive LiveProofs.

(* a source that does not read the container assigned to: the members become
   what the source held, or the part before the first that is refused; the loop
   ends, and no other container's members change *)
Theorem C65_replaces :
  forall (B : Type) (s : state (B := B)) (k : nat) (v : source) (fuel : nat),
  ~ reads v k -> blind v -> rounds s v < fuel ->
  (snd (assign fuel s k v) = Some RNone /\ members (fst (assign fuel s k v)) k = holds s v
   \/ exists e u a w, snd (assign fuel s k v) = Some (RExn e) /\ holds s v = u ++ a :: w
        /\ members (fst (assign fuel s k v)) k = u)
  /\ (forall k', k' <> k -> members (fst (assign fuel s k v)) k' = members s k').
Proof. exact @replaces. Qed.
Print Assumptions C65_replaces.

(* and it succeeds exactly if the objects are of the right class with ids of their own *)
Theorem C65_succeeds_iff :
  forall (U : Unicode) (B : Type) (beq : B -> B -> bool) (s : state) (h : list (nat * op)) (k : nat) (v : source) (fuel : nat),
  empty_conts s -> managed_history h -> no_dirty beq s h ->
  let s := run beq s h in ~ reads v k -> blind v -> rounds s v < fuel ->
  (snd (assign fuel s k v) = Some RNone <->
   (forall a, In a (holds s v) -> class_ok s k a) /\ list_ids_unique s (holds s v)).
Proof. exact @assign_succeeds_iff. Qed.
Print Assumptions C65_succeeds_iff.

(* the metadata property agrees with the others on such sources *)
Theorem C65_metadata_replaces :
  forall (B : Type) (is_md : nat -> bool) (s : state (B := B)) (k : nat) (v : source) (fuel : nat),
  ~ reads v k -> blind v -> rounds s v < fuel -> (forall k', v = SObj k' -> is_md k' = false) -> v <> SNone ->
  assign_metadata is_md fuel s k v = let '(s', r) := assign_all s k (holds s v) in (s', Some r).
Proof. exact @assign_metadata_other. Qed.
Print Assumptions C65_metadata_replaces.

(* x.tiers = x.tiers changes no member and no lookup *)
Theorem C65_copy :
  forall (U : Unicode) (B : Type) (beq : B -> B -> bool) (s : state) (h : list (nat * op)) (k fuel : nat),
  empty_conts s -> managed_history h -> no_dirty beq s h -> classes_ok (run beq s h) ->
  let s := run beq s h in
  snd (assign fuel s k (get_copy s k)) = Some RNone
  /\ (forall k', members (fst (assign fuel s k (get_copy s k))) k' = members s k')
  /\ (forall k', lookup_exact (fst (assign fuel s k (get_copy s k))) k').
Proof. exact @assign_copy. Qed.
Print Assumptions C65_copy.

(* x.tiers += l adds l at the end *)
Theorem C65_augmented :
  forall (U : Unicode) (B : Type) (beq : B -> B -> bool) (s : state) (h : list (nat * op)) (k : nat) (l : list nat) (fuel : nat),
  empty_conts s -> managed_history h -> no_dirty beq s h -> classes_ok (run beq s h) ->
  let s := run beq s h in
  (forall a, In a l -> class_ok s k a) -> list_ids_unique s (members s k ++ l) ->
  snd (iadd_copy fuel s k l) = Some RNone /\ members (fst (iadd_copy fuel s k l)) k = members s k ++ l
  /\ (forall k', lookup_exact (fst (iadd_copy fuel s k l)) k').
Proof. exact @iadd_adds. Qed.
Print Assumptions C65_augmented.

Example C65_example : forall U : Unicode,
  let s := run Nat.eqb start [(0, OExtend [0; 1; 3]); (1, OExtend [5])] in
  let sel := SSelect 0 (fun o => Nat.eqb (o_body o) 0) in
  ~ reads sel 1 /\ blind sel /\ holds s sel = [0; 1]
  /\ snd (assign 4 s 1 sel) = Some RNone /\ members (fst (assign 4 s 1 sel)) 1 = [0; 1]
  /\ snd (assign 4 s 1 (SList [0; 2])) = Some (RExn XigtError)
  /\ members (fst (assign 4 s 0 (get_copy s 0))) 0 = [0; 1; 3]
  /\ members (fst (iadd_copy 4 s 0 [5])) 0 = [0; 1; 3; 5].
Proof. intros U. cbn zeta. split; [easy|]. split; [easy|]. repeat split; vm_compute; reflexivity. Qed.
(* the histories in the examples meet the hypotheses *)
Example C65_history_example : forall U : Unicode,
  let h := [(0, OExtend [0; 1; 3]); (1, OExtend [5])] in
  empty_conts start /\ managed_history h /\ no_dirty Nat.eqb start h /\ classes_ok (run Nat.eqb start h).
Proof.
  intros U. cbn zeta. split; [easy|]. split; [intros k o [[= <- <-]|[[= <- <-]|[]]]; reflexivity|]. split.
  - intros [|[|j]] k o r H1 H2; [injection H1 as <- <-| injection H1 as <- <-|destruct j; discriminate]; reflexivity.
  - intros k a _. right. destruct k as [|[|k]]; cbn; do 6 (destruct a as [|a]; [reflexivity|]); reflexivity.
Qed.

(* ---------- sources that read the container itself ---------- *)

(* igt.tiers = igt, igt.tiers = igt.select(...): succeeds and leaves nothing *)
Theorem C65_self_erases :
  forall (B : Type) (s : state (B := B)) (k : nat) (v : source) (fuel : nat), reads v k ->
  snd (assign (S fuel) s k v) = Some RNone /\ members (fst (assign (S fuel) s k v)) k = [].
Proof. exact @assign_self. Qed.
Print Assumptions C65_self_erases.

Theorem C65_self_refuted :
  exists (B : Type) (s : state (B := B)) (k : nat) (v : source), blind v /\ forall fuel : nat, 0 < fuel ->
  snd (assign fuel s k v) = Some RNone /\ members (fst (assign fuel s k v)) k <> holds s v.
Proof.
  exists nat, (filled ascii_unicode), 0, (SSelect 0 (fun o => Nat.eqb (o_body o) 0)). split; [easy|].
  intros [|fuel] H; [inversion H|]. split; [reflexivity|]. vm_compute. discriminate.
Qed.
Print Assumptions C65_self_refuted.

(* x.metadata = x.metadata and x.metadata += [m] erase all metadata *)
Theorem C65_metadata_self_erases :
  forall (B : Type) (is_md : nat -> bool) (s : state (B := B)) (k : nat) (v : source) (fuel : nat),
  reads v k -> is_md k = false ->
  snd (assign_metadata is_md (S fuel) s k v) = Some RNone
  /\ members (fst (assign_metadata is_md (S fuel) s k v)) k = [].
Proof. exact @assign_metadata_self. Qed.
Print Assumptions C65_metadata_self_erases.

Theorem C65_metadata_augmented_erases :
  forall (B : Type) (is_md : nat -> bool) (s : state (B := B)) (k : nat) (l : list nat) (fuel : nat), is_md k = false ->
  snd (iadd_metadata is_md (S fuel) s k l) = Some RNone
  /\ members (fst (iadd_metadata is_md (S fuel) s k l)) k = [].
Proof. exact @iadd_metadata_erases. Qed.
Print Assumptions C65_metadata_augmented_erases.

Theorem C65_metadata_augmented_refuted :
  exists (B : Type) (is_md : nat -> bool) (s : state (B := B)) (k a : nat), members s k <> [] /\ forall fuel : nat, 0 < fuel ->
  snd (iadd_metadata is_md fuel s k [a]) = Some RNone /\ members (fst (iadd_metadata is_md fuel s k [a])) k <> members s k ++ [a].
Proof.
  exists nat, (fun _ => false), (filled ascii_unicode), 0, 5. split; [discriminate|].
  intros [|fuel] H; [inversion H|]. split; [reflexivity|]. vm_compute. discriminate.
Qed.
Print Assumptions C65_metadata_augmented_refuted.

(* metadata = None raises, but only after everything is gone; a Metadata object
   in place of a list is refused before *)
Theorem C65_metadata_none :
  forall (B : Type) (is_md : nat -> bool) (s : state (B := B)) (k fuel : nat),
  snd (assign_metadata is_md fuel s k SNone) = Some (RExn TypeError)
  /\ members (fst (assign_metadata is_md fuel s k SNone)) k = [].
Proof. exact @metadata_none. Qed.
Print Assumptions C65_metadata_none.

Theorem C65_metadata_object :
  forall (B : Type) (is_md : nat -> bool) (s : state (B := B)) (k k' fuel : nat), is_md k' = true ->
  assign_metadata is_md fuel s k (SObj k') = (s, Some (RExn XigtError)).
Proof. exact @metadata_object. Qed.
Print Assumptions C65_metadata_object.

(* c.extend(c), c.extend(c.select(...)): nothing selected, or an error at the
   first selected member that has an id, the ones before it being there twice,
   or no selected member has an id and the loop never ends *)
Theorem C65_extend_self :
  forall (U : Unicode) (B : Type) (beq : B -> B -> bool) (s : state) (h : list (nat * op)) (k : nat) (v : source),
  empty_conts s -> managed_history h -> no_dirty beq s h -> classes_ok (run beq s h) ->
  let s := run beq s h in reads v k -> blind v ->
  (holds s v = [] /\ forall fuel, rounds s v < fuel -> extend_src fuel s k v = (s, Some RNone))
  \/ (exists u a w, holds s v = u ++ a :: w /\ the_id s a <> None /\ (forall b, In b u -> the_id s b = None)
      /\ forall fuel, rounds s v < fuel ->
         snd (extend_src fuel s k v) = Some (RExn XigtError)
         /\ members (fst (extend_src fuel s k v)) k = members s k ++ u)
  \/ (holds s v <> [] /\ (forall a, In a (holds s v) -> the_id s a = None)
      /\ forall fuel, snd (extend_src fuel s k v) = None).
Proof. exact @extend_self. Qed.
Print Assumptions C65_extend_self.

Example C65_extend_self_example : forall U : Unicode,
  let s := run Nat.eqb start [(0, OExtend [3; 0; 1])] in
  snd (extend_src 9 s 0 (SObj 0)) = Some (RExn XigtError) /\ members (fst (extend_src 9 s 0 (SObj 0))) 0 = [3; 0; 1; 3]
  /\ snd (extend_src 9 s 0 (SSelect 0 (fun o => Nat.eqb (o_body o) 7))) = None
  /\ members (fst (extend_src 9 s 0 (SSelect 0 (fun o => Nat.eqb (o_body o) 7)))) 0 = [3; 0; 1; 3; 3; 3; 3; 3; 3; 3].
Proof. intros U. repeat split; vm_compute; reflexivity. Qed.
