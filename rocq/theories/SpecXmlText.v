(* Specification of documents as texts. *)
From Verif Require Import PyStr XmlStd XmlText.

(* attribute dicts have each key once *)
Inductive dicts : xelem -> Prop :=
| Dicts tag d text tail kids : NoDup (map fst d) -> Forall dicts kids -> dicts (XElem tag d text tail kids).
(* after the root there is white space at most *)
Definition ends_blank (e : xelem) : Prop :=
  let 'XElem _ _ _ tail _ := e in forall s c, tail = Some s -> In c s -> c = 32%N \/ c = 9%N \/ c = 10%N \/ c = 13%N.
(* no text has carriage returns (an XML text has them only by reference) *)
Definition free_text (t : option str) : Prop := forall s, t = Some s -> ~ In 13%N s.
Inductive no_cr : xelem -> Prop :=
| No_cr tag d text tail kids : free_text text -> free_text tail -> Forall no_cr kids -> no_cr (XElem tag d text tail kids).

(* How a tree is laid out: each child on a line of its own, [n] spaces further in
   than its parent; text before the children stays, unless it is white space. *)
Section Layout.
Context {U : Unicode}.
Definition line_at (n level : nat) : str := 10%N :: repeat 32%N (n * level).
Definition spelt (tag : str) (d : dict str) : str := Ch "<" :: tag ++ flat_map write_attr d.
Fixpoint laid_out (n level : nat) (e : xelem) : str :=
  match e with
  | XElem tag d text _ kids =>
    match kids with
    | [] => spelt tag d ++ match text_of text with [] => L " />" | s => L ">" ++ escape_cdata s ++ L "</" ++ tag ++ L ">" end
    | _ => spelt tag d ++ L ">" ++ (if forallb is_space (text_of text) then line_at n (S level) else escape_cdata (text_of text))
           ++ join (line_at n (S level)) (map (laid_out n (S level)) kids) ++ line_at n level ++ L "</" ++ tag ++ L ">"
    end
  end.
(* a root with children ends in a line end *)
Definition last_line (e : xelem) : str := let 'XElem _ _ _ _ kids := e in match kids with [] => [] | _ => [10%N] end.
End Layout.
