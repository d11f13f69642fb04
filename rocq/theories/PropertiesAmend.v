(** C65: block amendments, the special phrase of a sentence and the abbreviations it introduces. *)
From Verif Require Import ProofAmend.
From Coq Require String.
Local Open Scope N_scope.

(** * C65 *)
(** A block amendment is about everything from the first element said to the last one: as articles under a
    structural element if these are articles, as elements of an article otherwise. *)
Theorem C65_block : forall rf c x p, convert_block_amendment rf c x = Ok p <-> block_meaning rf (ca_map c) x p.
Proof. exact block_spec. Qed.
Print Assumptions C65_block.
(** An amendment of structural elements: the element, its parent and its book as named. *)
Theorem C65_structural : forall rf c x p,
  convert_structural_amendment rf c x = Ok p <-> structural_meaning rf (ca_map c) x (PhStructural p).
Proof. exact structural_spec. Qed.
Print Assumptions C65_structural.
(** An amendment of a subtitle: how the subtitle is told. *)
Theorem C65_subtitle : forall rf c x p,
  convert_subtitle_amendment rf c x = Ok p <-> subtitle_meaning rf (ca_map c) x (PhStructural p).
Proof. exact subtitle_spec. Qed.
Print Assumptions C65_subtitle.
(** The special phrase of a sentence of any kind. *)
Theorem C65_phrase : forall rf c r p, extract_special_phrase rf c r = Ok p <-> phrase_meaning rf (ca_map c) r p.
Proof. exact c65_phrase. Qed.
Print Assumptions C65_phrase.
Theorem C65_phrase_determined : forall rf c r p q,
  phrase_meaning rf (ca_map c) r p -> phrase_meaning rf (ca_map c) r q -> p = q.
Proof. exact c65_determined. Qed.
Print Assumptions C65_phrase_determined.
(** The abbreviations introduced: one for each act named with "a továbbiakban", in order. *)
Theorem C65_abbreviations : forall rf r ns,
  get_new_abbreviations rf r = Ok ns <-> exists l, acts_named r l /\ introduced rf l ns.
Proof. exact c65_abbreviations. Qed.
Print Assumptions C65_abbreviations.

Definition am_roman : str -> option Z := fun s => if str_eqb s (lit "XIII") then Some 13%Z else None.
Definition am_act : act_id := mkAct 2012 13.
Definition am_cache : cache := cache_from [(lit "Ptk.", am_act)].
Definition am_pos (a b : N) : pos := ModelSem.mkPos a b.
Definition am_ptk : g_act_ref := GAbbrev (lit "Ptk.") (am_pos 2 6).
Definition am_num (s : String.string) (a b : N) : g_part := mkGPart None None (Some (lit s)) (am_pos a b).
Definition am_art (s : String.string) (a b : N) : g_art_part := mkGArt None None None (Some (lit s)) (am_pos a b).
Definition am_ref (n : N) (p : option (range numeric)) : reference :=
  mkRef (Some am_act) (Some (single (mkArt None (mkNum n None)))) p None None.
Definition am_range (a b : N) : range numeric := mkRange (mkNum a None) (mkNum b None).
(** "A Ptk. 5. § (3) és (1) bekezdése helyébe..." *)
Definition am_paragraphs : g_ref :=
  mkGRef (Some [am_art "5" 7 12]) (Some [am_num "3" 13 16; am_num "1" 21 35]) None None None None (am_pos 7 35).
(** "A Ptk. VIII. fejezete a következő 5. §-sal és 7. §-sal egészül ki" *)
Definition am_articles : g_ins := mkGIns [[am_art "5" 30 35]; [am_art "7" 40 45]] None None None None None (am_pos 30 45).
Definition am_chapter : g_any_struct := mkGAny None (GChapter (lit "XIII")) false.
Example C65_block_example :
  convert_block_amendment am_roman am_cache (mkGBlock am_ptk None (Some am_paragraphs) None) =
    Ok (PhBlock (mkBaPhrase (am_ref 5 (Some (am_range 1 3))) false)) /\
  convert_block_amendment am_roman am_cache (mkGBlock am_ptk (Some am_chapter) None (Some am_articles)) =
    Ok (PhStructural (mkSbaPhrase (mkSRef (Some am_act) None (Some (SpChapter (mkNum 13 None)))
      (SeArticle (mkRange (mkArt None (mkNum 5 None)) (mkArt None (mkNum 7 None)))) false) true)) /\
  convert_block_amendment am_roman am_cache (mkGBlock am_ptk None (Some am_paragraphs)
    (Some (mkGIns [[am_art "7" 40 45]] None None None None None (am_pos 40 45)))) = Err.
Proof. vm_compute. repeat split. Qed.
Example C65_structural_example :
  convert_structural_amendment am_roman am_cache (mkGBlockStruct am_ptk (Some am_chapter)
    (mkGAny None (GSubtitlePart (mkGSub None None (Some (lit "3")))) false) true (Some (lit "Második"))) =
    Ok (mkSbaPhrase (mkSRef (Some am_act) (Some (mkNum 2 None)) (Some (SpChapter (mkNum 13 None)))
      (SeSubtitleId (mkNum 3 None)) false) true).
Proof. vm_compute. reflexivity. Qed.
Example C65_subtitle_example :
  let x art rel id title ins := mkGBlockSub am_ptk None rel (mkGWs art id title) ins in
  let s := mkGSingle (am_art "5" 7 12) (am_pos 7 12) in
  let a5 := mkArt None (mkNum 5 None) in
  let is e ins := Ok (mkSbaPhrase (mkSRef (Some am_act) None None e false) ins) in
  let conv := convert_subtitle_amendment am_roman am_cache in
  conv (x (Some s) (Some (GAfter s)) None None true) = is (SeSubtitleBeforeArticleInclusive a5) true /\
  conv (x None (Some (GAfter s)) None (Some (lit "T")) true) = is (SeSubtitleAfterArticle a5) true /\
  conv (x None None (Some (lit "4")) (Some (lit "T")) false) = is (SeSubtitleTitle (lit "T")) false /\
  conv (x None None (Some (lit "4")) None false) = is (SeSubtitleId (mkNum 4 None)) false /\
  conv (x None None None None true) = is SeSubtitleUnknown true /\
  conv (x None None None None false) = Err.
Proof. vm_compute. repeat split. Qed.
Definition am_id (s : option String.string) : g_act_ref :=
  GActId (mkGNow (mkGAct (lit "2012") (lit "XIII") (am_pos 2 20)) (option_map lit s)).
Example C65_abbreviations_example :
  get_new_abbreviations am_roman (RText (mkGTa (am_id (Some "Ptk."%string)) [] [])) = Ok [(lit "Ptk.", am_act)] /\
  get_new_abbreviations am_roman (RList [GCompound (mkGComp (Some (am_id (Some "A."%string))) []); GOther;
    GCompound (mkGComp (Some am_ptk) []); GCompound (mkGComp (Some (am_id None)) []);
    GCompound (mkGComp (Some (am_id (Some "B."%string))) [])]) = Ok [(lit "A.", am_act); (lit "B.", am_act)].
Proof. vm_compute. repeat split. Qed.
(** The position may have elements that were not said: amending (1) and (3) counts as amending (1) to (3). *)
Theorem C65_only_what_is_said_refuted :
  ~ (forall rf c x b, convert_block_amendment rf c x = Ok (PhBlock b) ->
     forall refs e, get_outgoing_references rf c (RBlock x) = Ok refs -> contains (ba_position b) e = true ->
     exists o, In o refs /\ is_act_only (o_ref o) = false /\ contains (o_ref o) e = true).
Proof.
  intros H. specialize (H am_roman am_cache (mkGBlock am_ptk None (Some am_paragraphs) None) _ eq_refl _ (am_ref 5 (Some (am_range 2 2))) eq_refl eq_refl).
  destruct H as (o & I & A & C). vm_compute in I. destruct I as [<-|[<-|[<-|[]]]]; vm_compute in A, C; discriminate.
Qed.
Print Assumptions C65_only_what_is_said_refuted.
