(** C78-: sentences which replace or add subtitles, and what is read from them. *)
From Verif Require Import PropertiesSay PropertiesSay2 PropertiesSay3 ProofSay30.
From Coq Require Import Lia.
Local Open Scope N_scope.

(** * C78 *)
(** A sentence that replaces or adds a subtitle of an act: the act is found, and the articles named, each at its place; the
    position is before the article which the subtitle comes with, or beside the article it is said to be beside, or that of its
    number, numbers or title. *)
Theorem C78_subtitles : forall rf c pre post a s info, roman_from_reads rf -> top pre = [] -> top post = [] ->
  subtitle_sentence (ca_map c) a s info ->
  extract_semantic_info rf grammar_parse s (mkAdder pre post c) = (mkAdder pre post c, Ok info).
Proof. exact (fun rf c pre post a s info H => subtitle_read rf c H pre post a s info). Qed.
Print Assumptions C78_subtitles.
Definition sa_fifth : article_id := mkArt None (mkNum 5 (Some (sa_la "a"))).
Definition sa_at (b e : N) (x : article_id) : out_ref := mkOut b e (mkRef (Some sa_act) (Some (sa_one x)) None None None).
Definition sa_sub (l : list out_ref) (p : option sr_parent) (e : sr_element) (t i : bool) : sem_info :=
  mkSi (mkOut 3 9 (only_act sa_act) :: l) [] (Some (PhStructural (mkSbaPhrase (mkSRef (Some sa_act) None p e t) i))).
Lemma sa_one_article x i w e : article_ok x = true -> one_letter (a_ident x) -> i = article_show x ++ lit "." -> w = lit "-" ++ e -> Forall small_letter e -> e <> [] -> one_article x (i ++ lit " " ++ lit "§" ++ w).
Proof.
  intros OK L -> -> F NE. split; [exact OK|]. split; [exact L|]. eapply (ended_last (PartArticle (mkRange x x)) _ (lit "§")).
  - apply said_article. left. auto.
  - now apply ending_article.
Qed.
Ltac small_word := repeat (constructor; [unfold small_letter, lower_letter; first [left; vm_compute; intuition discriminate|right; apply sa_in1; vm_compute; reflexivity]|]); constructor.
Lemma sa_fifth_said : one_article sa_fifth (lit "5/A. §-át").
Proof. apply (sa_one_article sa_fifth (lit "5/A.") (lit "-át") (lit "át")); [reflexivity|exact I|reflexivity|reflexivity|small_word|discriminate]. Qed.
Lemma sa_fifth_with : one_article sa_fifth (lit "5/A. §-sal").
Proof. apply (sa_one_article sa_fifth (lit "5/A.") (lit "-sal") (lit "sal")); [reflexivity|exact I|reflexivity|reflexivity|small_word|discriminate]. Qed.
Lemma sa_word e : Forall small_letter e -> subtitle_word (lit "alcím" ++ e).
Proof. intros H. exists e. auto. Qed.
(** Beside an article, in a part *)
Example C78_sample :
  (exists s info, subtitle_sentence (ca_map sa_cache) sa_act s info /\
   s = lit "Az Fgytv. Második Része az 5/A. §-át megelőzően a következő „Záró rész” alcímmel egészül ki:" /\
   info = sa_sub [sa_at 29 40 sa_fifth] (Some (SpPart (sa_num 2))) (SeSubtitleBeforeArticle sa_fifth) false true) /\
  sa_read "Az Fgytv. Második Része az 5/A. §-át megelőzően a következő „Záró rész” alcímmel egészül ki:" sa_cache =
    Ok (sa_sub [sa_at 29 40 sa_fifth] (Some (SpPart (sa_num 2))) (SeSubtitleBeforeArticle sa_fifth) false true).
Proof.
  split; [|vm_compute; reflexivity]. do 2 eexists. split.
  - apply (subtitle_sentence_of _ _ (lit "Az ") [] (lit "Fgytv.")); [member|apply sa_short|].
    eapply (subtitle_added _ _ (Some (SpPart (sa_num 2))) (lit " Második Része") (Some (SeSubtitleBeforeArticle sa_fifth)) _ _ (lit "a következő") None (Some (SeSubtitleTitle (lit "Záró rész"))) _ (lit " „Záró rész” alcímmel") (lit " egészül ki:")).
    + exact (in_element _ _ _ sa_resz).
    + apply (near_article _ _ (lit "az ") sa_fifth (lit "5/A. §-át") SeSubtitleBeforeArticle (lit "megelőzően")); [member|exact sa_fifth_said|constructor; member].
    + member.
    + apply (subtitle_alone _ _ _ (lit "„Záró rész” ") (lit "alcímmel")); [|apply (sa_word (lit "mel")); small_word]. apply (with_name _ (lit "„Záró rész”")), by_its_title. apply (sa_quotation (lit "Záró rész")); [vm_compute; repeat (constructor; [split; discriminate|]); constructor|split; reflexivity].
    + member.
  - split; vm_compute; reflexivity.
Qed.
(** With an article *)
Example C78_with_article :
  (exists s info, subtitle_sentence (ca_map sa_cache) sa_act s info /\
   s = lit "Az Fgytv. a következő 5/A. §-sal és az azt megelőző alcímmel egészül ki:" /\
   info = sa_sub [sa_at 24 35 sa_fifth] None (SeSubtitleBeforeArticleInclusive sa_fifth) false true) /\
  sa_read "Az Fgytv. a következő 5/A. §-sal és az azt megelőző alcímmel egészül ki:" sa_cache =
    Ok (sa_sub [sa_at 24 35 sa_fifth] None (SeSubtitleBeforeArticleInclusive sa_fifth) false true).
Proof.
  split; [|vm_compute; reflexivity]. do 2 eexists. split.
  - apply (subtitle_sentence_of _ _ (lit "Az ") [] (lit "Fgytv.")); [member|apply sa_short|].
    eapply (subtitle_added _ _ None [] None [] [] (lit "a következő") (Some sa_fifth) None _ (lit " 5/A. §-sal és az azt megelőző alcímmel") (lit " egészül ki:")); [constructor|constructor|member| |member].
    apply (article_then_subtitle _ _ sa_fifth (lit "5/A. §-sal") (lit "és az azt megelőző") (lit "alcímmel")); [exact sa_fifth_with|member|]. apply (sa_word (lit "mel")). small_word.
  - split; vm_compute; reflexivity.
Qed.
(** Only the titles of a range *)
Example C78_range :
  (exists s info, subtitle_sentence (ca_map sa_cache) sa_act s info /\
   s = lit "Az Fgytv. 12–14/B. alcím címe helyébe a következő alcím cím lép:" /\
   info = sa_sub [] None (SeSubtitleRange (mkRange (sa_num 12) (mkNum 14 (Some (sa_la "b"))))) true false) /\
  sa_read "Az Fgytv. 12–14/B. alcím címe helyébe a következő alcím cím lép:" sa_cache =
    Ok (sa_sub [] None (SeSubtitleRange (mkRange (sa_num 12) (mkNum 14 (Some (sa_la "b"))))) true false).
Proof.
  split; [|vm_compute; reflexivity]. do 2 eexists. split.
  - apply (subtitle_sentence_of _ _ (lit "Az ") [] (lit "Fgytv.")); [member|apply sa_short|].
    apply (subtitle_replaced _ _ (SeSubtitleRange (mkRange (sa_num 12) (mkNum 14 (Some (sa_la "b"))))) (lit "12–14/B.") (lit "alcím") true (lit " címe") (lit " helyébe a következő alcím cím lép:")); [|apply (sa_word []); constructor|exact the_title|member].
    apply (numbered_range _ _ (lit "12") (lit "14/B")); [apply (number_plain 12); lia|apply (number_lettered 14 66); lia|discriminate].
  - split; vm_compute; reflexivity.
Qed.
(** ** What is not read *)
(** That only the title of a subtitle beside an article is replaced is lost. *)
Theorem C78_title_beside_refuted :
  ~ (forall rf c pre post a az title name near l s s' e, roman_from_reads rf -> top pre = [] -> top post = [] ->
     In az the -> act_named (ca_map c) a (s ++ lit " alcím" ++ s' ++ e) title name -> near_said a (az ++ title ++ name) (Some near) l s -> title_only_said true s' -> In e subtitle_endings ->
     snd (extract_semantic_info rf grammar_parse (az ++ title ++ name ++ s ++ lit " alcím" ++ s' ++ e) (mkAdder pre post c)) =
       Ok (mkSi (mkOut (utf8_len (az ++ title)) (utf8_len (az ++ title ++ name)) (only_act a) :: l) [] (Some (PhStructural (mkSbaPhrase (mkSRef (Some a) None None near true) false))))).
Proof.
  intros H. specialize (H sa_roman sa_cache [] [] sa_act (lit "Az ") [] (lit "Fgytv.") (SeSubtitleBeforeArticle sa_fifth) _ _ _ (lit " helyébe a következő alcím cím lép:") roman_read_reads eq_refl eq_refl ltac:(member) (sa_short _)
    (near_article sa_act (lit "Az Fgytv.") [] sa_fifth _ SeSubtitleBeforeArticle (lit "megelőző") ltac:(now left) sa_fifth_said ltac:(constructor; member)) the_title ltac:(member)). vm_compute in H. discriminate H.
Qed.
Print Assumptions C78_title_beside_refuted.
(** A subtitle which has a number or a title cannot be replaced together with an article. *)
Theorem C78_replaced_with_article_refuted :
  ~ (forall rf c pre post a az title name own s w x s' e, roman_from_reads rf -> top pre = [] -> top post = [] ->
     In az the -> act_named (ca_map c) a (lit " " ++ s ++ lit " " ++ w ++ lit " és " ++ s' ++ e) title name -> own_name own s -> subtitle_word w -> one_article x s' -> In e subtitle_endings ->
     exists l, snd (extract_semantic_info rf grammar_parse (az ++ title ++ name ++ lit " " ++ s ++ lit " " ++ w ++ lit " és " ++ s' ++ e) (mkAdder pre post c)) =
       Ok (mkSi l [] (Some (PhStructural (mkSbaPhrase (mkSRef (Some a) None None (SeSubtitleBeforeArticleInclusive x) false) false))))).
Proof.
  intros H. destruct (H sa_roman sa_cache [] [] sa_act (lit "Az ") [] (lit "Fgytv.") (SeSubtitleId (sa_num 12)) (lit "12.") (lit "alcíme") sa_fifth (lit "5/A. §-át") (lit " helyébe a következő alcím és rendelkezés lép:") roman_read_reads eq_refl eq_refl ltac:(member) (sa_short _)) as (l & E).
  - apply (by_its_number _ (lit "12")), (number_plain 12). lia.
  - apply (sa_word (lit "e")). small_word.
  - exact sa_fifth_said.
  - member.
  - vm_compute in E. discriminate E.
Qed.
Print Assumptions C78_replaced_with_article_refuted.
(** "lépnek" is never read after the words for a subtitle: "lép" is tried before it. *)
Theorem C78_plural_refuted :
  ~ (forall rf c pre post a az title name near l s e, roman_from_reads rf -> top pre = [] -> top post = [] ->
     In az the -> act_named (ca_map c) a (s ++ lit " alcím" ++ e) title name -> near_said a (az ++ title ++ name) (Some near) l s ->
     In e (flat_map (fun f => map (fun w => lit " helyébe " ++ f ++ lit " " ++ w ++ lit "nek:") subtitle_replacements) following) ->
     exists l, snd (extract_semantic_info rf grammar_parse (az ++ title ++ name ++ s ++ lit " alcím" ++ e) (mkAdder pre post c)) =
       Ok (mkSi l [] (Some (PhStructural (mkSbaPhrase (mkSRef (Some a) None None near false) false))))).
Proof.
  intros H. destruct (H sa_roman sa_cache [] [] sa_act (lit "Az ") [] (lit "Fgytv.") (SeSubtitleBeforeArticle sa_fifth) _ _ (lit " helyébe a következő alcím és rendelkezés lépnek:") roman_read_reads eq_refl eq_refl ltac:(member) (sa_short _)
    (near_article sa_act (lit "Az Fgytv.") [] sa_fifth _ SeSubtitleBeforeArticle (lit "megelőző") ltac:(now left) sa_fifth_said ltac:(constructor; member)) ltac:(member)) as (l & E). vm_compute in E. discriminate E.
Qed.
Print Assumptions C78_plural_refuted.
