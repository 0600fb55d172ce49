(* Property C26: the loading modes. *)
From Verif Require Import PyStr Model Value Iter SpecIter.
From Verif Require IterProofs.

(* From a generator (XML) or a list (JSON) of igts with distinct ids, in every
   mode, the first iteration delivers exactly those igts in order; afterwards the
   corpus is full and holds all of them, or nothing if it was transient. *)
Theorem C26_modes : forall (m : mode) (src : source) (l : list igt),
  src = SGen l None \/ src = SList l -> distinct_ids l ->
  exists x x', construct m src = Ok x /\ iterates x l x' /\ xc_mode x' = FULL
    /\ xc_members x' = match m with TRANSIENT => [] | _ => l end.
Proof. exact IterProofs.modes_agree. Qed.
Print Assumptions C26_modes.
Example C26_three : distinct_ids IterProofs.three /\ length IterProofs.three = 3.
Proof. split; [exact IterProofs.three_distinct | reflexivity]. Qed.

(* what an iteration delivers, and the corpus after it, are determined *)
Theorem C26_deterministic : forall (x : xcorpus) (l : list igt) (x' : xcorpus) (l' : list igt) (x'' : xcorpus),
  iterates x l x' -> iterates x l' x'' -> l = l' /\ x' = x''.
Proof. exact IterProofs.iterates_unique. Qed.
Print Assumptions C26_deterministic.
(* and a full corpus delivers its members every time *)
Theorem C26_full_again : forall (x : xcorpus) (l : list igt), xc_mode x = FULL -> xc_members x = l -> iterates x l x.
Proof. exact IterProofs.iterates_full. Qed.
Print Assumptions C26_full_again.

(* Any schedule of next() on any iterators of an incremental corpus: no igt is
   delivered twice or skipped, what has been delivered is what the corpus holds,
   and at the first end of an iterator it is the full corpus. *)
Theorem C26_incremental : forall (l : list igt) (h : list nat) (x x' : xcorpus) (its' : iters) (rs : list reply),
  distinct_ids l -> construct INCREMENTAL (SGen l None) = Ok x -> run x (fun _ => INew) h = (x', its', rs) ->
  (forall e, ~ In (Raise e) rs) /\ (exists rest, l = xc_members x' ++ rest)
  /\ (~ In Stop rs -> delivered rs = xc_members x')
  /\ (In Stop rs -> xc_mode x' = FULL /\ xc_members x' = l).
Proof. exact IterProofs.incremental_history. Qed.
Print Assumptions C26_incremental.
Example C26_interleaved : exists x x' its', construct INCREMENTAL (SGen IterProofs.three None) = Ok x
  /\ run x (fun _ => INew) [0; 1; 0; 1; 0; 2] =
     (x', its', [Yield (IterProofs.anigt (Some (L "i1"))); Yield (IterProofs.anigt (Some (L "i2")));
                 Yield (IterProofs.anigt None); Stop; Stop; Yield (IterProofs.anigt (Some (L "i1")))])
  /\ xc_members x' = IterProofs.three.
Proof. exact IterProofs.c26_example. Qed.

(* The same for a transient corpus, which retains nothing (ids may repeat). *)
Theorem C26_transient : forall (l : list igt) (h : list nat) (x x' : xcorpus) (its' : iters) (rs : list reply),
  construct TRANSIENT (SGen l None) = Ok x -> run x (fun _ => INew) h = (x', its', rs) ->
  (forall e, ~ In (Raise e) rs) /\ xc_members x' = []
  /\ (~ In Stop rs -> exists rest, l = delivered rs ++ rest)
  /\ (In Stop rs -> delivered rs = l /\ xc_mode x' = FULL).
Proof. exact IterProofs.transient_history. Qed.
Print Assumptions C26_transient.

(* a full corpus can be built exactly if the ids are distinct *)
Theorem C26_full_iff : forall l : list igt, (exists x, construct FULL (SGen l None) = Ok x) <-> distinct_ids l.
Proof. exact IterProofs.construct_full_iff. Qed.
Print Assumptions C26_full_iff.

(* With a list as source (what the JSON codec passes) each partial iteration
   starts over: an igt with an id is then refused, one without is held twice. *)
Theorem C26_list_refuted : exists l x x' its' g, distinct_ids l /\ construct INCREMENTAL (SList l) = Ok x
  /\ run x (fun _ => INew) [0; 1] = (x', its', [Yield g; Raise XigtError]).
Proof. exact IterProofs.c26_list. Qed.
Print Assumptions C26_list_refuted.
Theorem C26_list_twice_refuted : exists l x x' its' g, distinct_ids l /\ construct INCREMENTAL (SList l) = Ok x
  /\ run x (fun _ => INew) [0; 1; 1] = (x', its', [Yield g; Yield g; Stop]) /\ xc_mode x' = FULL
  /\ l = [g] /\ xc_members x' = [g; g].
Proof. exact IterProofs.c26_list_twice. Qed.
Print Assumptions C26_list_twice_refuted.

(* a full corpus takes all from the source at once: it is not made if the source
   fails *)
Theorem C26_failing_construction : forall (l : list igt) (e : exn),
  distinct_ids l -> construct FULL (SGen l (Some e)) = Err e.
Proof. exact IterProofs.failing_construction. Qed.
Print Assumptions C26_failing_construction.
(* An error of the source (a parse error in the middle of a file) is reported
   once; the next iteration ends normally and leaves a full, truncated corpus. *)
Theorem C26_failing_source : forall (l : list igt) (e : exn) (m : mode),
  (m = INCREMENTAL /\ distinct_ids l) \/ m = TRANSIENT -> exists x x' its' x'' its'',
  construct m (SGen l (Some e)) = Ok x
  /\ run x (fun _ => INew) (repeat 0 (S (length l))) = (x', its', map Yield l ++ [Raise e])
  /\ run x' its' [1] = (x'', its'', [Stop])
  /\ xc_mode x'' = FULL /\ xc_members x'' = match m with TRANSIENT => [] | _ => l end.
Proof. exact IterProofs.failing_source. Qed.
Print Assumptions C26_failing_source.
