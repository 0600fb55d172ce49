(* Concrete texts. *)
From Verif Require Import PyStr PyStrFacts SpecRef Ref Model SpecModel XmlStd Xml SpecXml SpecReload XmlText SpecXmlText AttrOrder SpecAttrOrder.
From Verif Require Import XmlProofs ReloadExamples XmlExamples ChunksProofs TextRunProofs.

Fixpoint no_crb (e : xelem) : bool :=
  match e with
  | XElem _ _ text tail kids => negb (existsb (N.eqb 13) (text_of text)) && negb (existsb (N.eqb 13) (text_of tail)) && forallb no_crb kids
  end.
Lemma no_crb_ok e : no_crb e = true -> no_cr e.
Proof.
  induction e as [tag d text tail kids IH] using xelem_rec'. cbn [no_crb]. intros H. apply andb_prop in H as [H Hk]. apply andb_prop in H as [H1 H2].
  assert (X : forall t, negb (existsb (N.eqb 13) (text_of t)) = true -> free_text t).
  { intros t H s -> Hin. cbn in H. assert (Y : existsb (N.eqb 13) s = true) by (apply existsb_exists; exists 13%N; split; [easy|apply N.eqb_refl]). now rewrite Y in H. }
  constructor; [now apply X|now apply X|]. rewrite Forall_forall in *. rewrite forallb_forall in Hk. auto.
Qed.

(* an XML declaration, a comment, single quotes, a CDATA section, references, a
   processing instruction, lines ended in two ways, white space in an attribute *)
Definition text1 : str := L "<?xml version='1.0' encoding='utf-8'?>
<!-- a corpus - of one igt -->
<xigt-corpus id='c' xmlns:dc=""http://purl.org/dc/elements/1.1/"">" ++ [13%N; 10%N] ++ L "  <igt id='i1'  >
    <?keep this?>
    <tier type = ""words"" id='w'>
      <item id=""w1"">a &amp; <![CDATA[<b> & ]]>&#x21;</item><item id=""w2"" alignment=""w1,
w&#49;""/>
    </tier >
  </igt>
</xigt-corpus>
<!-- end -->
".
Definition elem1 : xelem := match parse_text text1 with Ok e => e | Err _ => XElem [] [] None None [] end.
Lemma text1_parses : parse_text text1 = Ok elem1 /\ no_cr elem1 /\ tidy_document elem1.
Proof. split; [now vm_compute|]. split; [apply no_crb_ok; now vm_compute|]. split; [apply tidyb_ok|]; now vm_compute. Qed.

Section Texts.
Context {U : Unicode}.
Lemma loads_any s e c : parse_text s = Ok e -> no_cr e -> (forall ahead, xml_load ahead e = Ok c) -> forall ahead, loads ahead s = Ok c.
Proof. intros H K X ahead. now rewrite (text_as_elem ahead _ _ H K). Qed.
Lemma text1_loads : exists c, (forall ahead, loads ahead text1 = Ok c)
  /\ map (fun g => map (fun t => map (fun i => (it_text i, a_dict (it_attrs i))) (t_items t)) (g_tiers g)) (c_igts c)
     = [[[(Some (L "a & <b> & !"), []); (None, [(L "alignment", L "w1, w1")])]]].
Proof.
  eexists. split; [eapply loads_any; [exact (proj1 text1_parses)|exact (proj1 (proj2 text1_parses))|]|].
  - apply load_any; vm_compute; reflexivity.
  - now vm_compute.
Qed.
End Texts.

(* a carriage return that is written as a reference is read as one, saved as it is,
   and read as a line end *)
Definition text_cr : str := L "<xigt-corpus><igt><tier><item>a&#13;b</item></tier></igt></xigt-corpus>".
Definition item_texts (c : corpus) : list (option str) := flat_map (fun g => flat_map (fun t => map it_text (t_items t)) (g_tiers g)) (c_igts c).
Lemma cr_refuted : exists s c s' c', @loads ascii_unicode 8 s = Ok c /\ @dumps ascii_unicode c None = Ok s' /\ @loads ascii_unicode 8 s' = Ok c'
  /\ item_texts c = [Some [Ch "a"; 13%N; Ch "b"]] /\ item_texts c' = [Some [Ch "a"; 10%N; Ch "b"]].
Proof. exists text_cr. do 3 eexists. split; [now vm_compute|]. split; [now vm_compute|]. split; [now vm_compute|]. split; now vm_compute. Qed.

(* texts that are not well formed *)
Definition bad_texts : list str := map L
  [""; "<xigt-corpus>"; "<xigt-corpus></igt></xigt-corpus>"; "<a/><b/>"; "x<a/>"; "<a>&b;</a>"; "<a>&amp</a>"; "<a b='1' b='2'/>"; "<a b=1/>"; "<a b='<'/>";
   "<a>]]></a>"; "<!-- a -- b --><a/>"; "<a>&#0;</a>"; " <?xml version='1.0'?><a/>"; "<a b='1'c='2'/>"; "< a/>"; "<!DOCTYPE a><a/>"]%string.
Lemma bad_texts_fail : forallb (fun s => match @loads ascii_unicode 8 s with Err ParseError => true | _ => false end) bad_texts = true.
Proof. now vm_compute. Qed.

(* how the corpus of XmlExamples.v is laid out *)
Definition lines1 : str := L "<xigt-corpus xmlns:dc=""http://purl.org/dc/elements/1.1/"" id=""c"" alignment-method=""auto"">
  <metadata>
    <meta xmlns:my=""urn:my"" id=""m1"" type=""info"">
      <dc:title my:lang=""a&lt;b"">Ex <b />
      </dc:title>
    </meta>
  </metadata>
  <igt id=""i1"">
    <metadata>
      <meta xmlns:my=""urn:my"" id=""m1"" type=""info"">
        <dc:title my:lang=""a&lt;b"">Ex <b />
        </dc:title>
      </meta>
    </metadata>
    <tier id=""w"" type=""words"" dc:source=""x"">
      <item id=""w1"" content=""p1[0:2]"" />
      <item id=""w2"" content=""""> a b</item>
    </tier>
  </igt>
  <igt />
</xigt-corpus>
".
Lemma layout_example : exists e, @xml_dump ascii_unicode xc None = Ok e /\ @dumps ascii_unicode xc (Some 2) = Ok lines1 /\ @laid_out ascii_unicode 2 0 e ++ last_line e = lines1.
Proof. eexists. split; [now vm_compute|]. split; now vm_compute. Qed.

Lemma order_example : let e := XElem (L "item") [(L "zeta", L "1"); (L "segmentation", L "2"); (L "id", L "i"); (L "xmlns:b", L "u"); (L "content", L "3"); (L "Zeta", L "4");
     (L "type", L "t"); (L "xmlns:a", L "v"); (L "alignment", L "5")] None None [] in
  dicts e /\ write_elem (sort_attrs e) = L "<item xmlns:a=""v"" xmlns:b=""u"" id=""i"" type=""t"" alignment=""5"" content=""3"" segmentation=""2"" Zeta=""4"" zeta=""1"" />".
Proof. split; [|now vm_compute]. constructor; [|constructor]. repeat constructor; vm_compute; intuition discriminate. Qed.
