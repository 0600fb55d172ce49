(* Specification of importing a Toolbox file.  No proofs here. *)
From Verif Require Import PyStr Model SpecToolbox Toolbox ToolboxRun Files.

(* the lines of a file: each ends with a newline, but for the last, which may *)
Inductive lines_of : list N -> list (list N) -> Prop :=
| no_lines : lines_of [] []
| last_line body : body <> [] -> ~ In 10%N body -> lines_of body [body]
| full_line body s ls : ~ In 10%N body -> lines_of s ls -> lines_of (body ++ 10%N :: s) ((body ++ [10%N]) :: ls).
(* an option is the one that is given, or the default *)
Definition chosen {A} (given : option A) (default x : A) : Prop := given = Some x \/ (given = None /\ x = default).
(* the configuration in the comment at the top of the file, lines 5-38 *)
Definition options_for (f : tb_config) (o : tb_options) : Prop :=
  chosen (f_markers f) [L "\id"; L "\ref"] (o_markers o)
  /\ chosen (f_attribute_map f) [(L "\id", L "corpus-id")] (o_attribute_map o)
  /\ chosen (f_tier_map f) [(L "\t", L "w"); (L "\m", L "m"); (L "\g", L "g"); (L "\p", L "pos"); (L "\f", L "t")] (o_tier_map o)
  /\ chosen (f_phrase f) (Some (L "w", L "p")) (o_phrase o)
  /\ chosen (f_types f) [(L "p", (Some (L "phrases"), false)); (L "w", (Some (L "words"), true)); (L "m", (Some (L "morphemes"), true));
       (L "g", (Some (L "glosses"), true)); (L "pos", (Some (L "pos"), true)); (L "t", (Some (L "translations"), false))] (o_types o)
  /\ chosen (f_alignments f) [(L "w", (L "segmentation", L "p")); (L "m", (L "segmentation", L "w")); (L "g", (L "alignment", L "m"));
       (L "pos", (L "alignment", L "m")); (L "t", (L "alignment", L "p"))] (o_alignments o).
(* the options that a run has: none are given, or those of a file *)
Definition configured (json_load : str -> res tb_config) (w : disk) (config : option str) (o : tb_options) : Prop :=
  exists f, options_for f o
    /\ ((config = None /\ f = no_config) \/ exists p s, config = Some p /\ dget (d_files w) p = Some s /\ json_load s = Ok f).
