(* Specification of exporting to an [incr tsdb()] profile as a whole.  No proofs here. *)
From Verif Require Import PyStr Model Itsdb Files Stream ItsdbRun.

(* the options that a run has: none, or those of a file *)
Definition options_of (json_load : str -> res it_config) (w : disk) (config : option str) (f : it_config) : Prop :=
  (f = no_options /\ (config = None \/ config = Some []))
  \/ exists p s, config = Some p /\ p <> [] /\ dget (d_files w) p = Some s /\ json_load s = Ok f.
(* where the Relations file is in a directory, which may be written with a slash *)
Inductive below : str -> str -> str -> Prop :=
| below_here r : below [] r r
| below_slash d r : below (d ++ L "/") r (d ++ L "/" ++ r)
| below_dir d x r : x <> Ch "/" -> below (d ++ [x]) r (d ++ x :: L "/" ++ r).
(* the Relations file: the one that is configured, or else the one of LOGONROOT *)
Definition found (logonroot : option str) (w : disk) (f : it_config) (p : str) : Prop :=
  p <> [] /\ dget (d_files w) p <> None
  /\ (r_relations f = Some (Some p)
      \/ (r_relations f = None /\ exists root, logonroot = Some root /\ below root (L "lingo/lkb/src/tsdb/skeletons/english/Relations") p)).
(* the rows of what could be read and exported, and the error they end with *)
Definition exported {V} (ev : str -> igt -> res V) (c : config) (st : stream) (rows : list (dict (cell V))) (e : option exn) : Prop :=
  match e with
  | None => st_end st = None /\ export_corpus ev (st_igts st) c = Ok rows
  | Some x => exists a b, st_igts st = a ++ b /\ export_corpus ev a c = Ok rows
      /\ match b with
         | [] => st_end st = Some x
         | g :: _ => export_igt ev g (or_else (cf_start c) 0 + Z.of_nat (length a) * or_else (cf_skip c) 0)%Z c = Err x
         end
  end.
