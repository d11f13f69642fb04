(** Specification for sentences which replace or add subtitles (C78). *)
From Verif Require Export SpecSay6 SpecSay4.

(** ** Articles: "5/A. §-át" *)
Definition one_article (x : article_id) (s : str) : Prop :=
  article_ok x = true /\ one_letter (a_ident x) /\ said_ended [PartArticle (mkRange x x)] s.
(** What is found at [s] after [before] *)
Definition article_found (a : act_id) (before s : str) (x : article_id) : out_ref :=
  mkOut (utf8_len before) (utf8_len (before ++ s)) (mkRef (Some a) (Some (mkRange x x)) None None None).

(** ** Places: "az 5. §-t megelőzően", "az 5. §-át követő" *)
Inductive on_side : (article_id -> sr_element) -> str -> Prop :=
| before_side w : In w (map lit ["megelőző"; "megelőzően"; "előtti"]%string) -> on_side SeSubtitleBeforeArticle w
| after_side w : In w (map lit ["követő"; "követően"]%string) -> on_side SeSubtitleAfterArticle w.
Inductive near_said (a : act_id) (before : str) : option sr_element -> list out_ref -> str -> Prop :=
| no_place : near_said a before None [] []
| near_article z x s f w : In z articles -> one_article x s -> on_side f w ->
    near_said a before (Some (f x)) [article_found a (before ++ lit " " ++ z) s x] (lit " " ++ z ++ s ++ lit " " ++ w).

(** ** Subtitles: "12/A. alcím", "„Záró rendelkezések” alcím", "alcím" *)
Inductive number_said : numeric -> str -> Prop :=
| number_plain n : (n <= 65535)%N -> number_said (mkNum n None) (show_N n)
| number_lettered n c : (n <= 65535)%N -> (65 <= c <= 90)%N -> number_said (mkNum n (Some (Latin (c + 32)))) (show_N n ++ lit "/" ++ [c]).
Inductive own_name : sr_element -> str -> Prop :=
| by_its_number n s : number_said n s -> own_name (SeSubtitleId n) (s ++ lit ".")
| by_its_title x q : quotation x q -> own_name (SeSubtitleTitle x) q.
(** One subtitle, or the subtitles of a range: "12–14." *)
Inductive own_names : sr_element -> str -> Prop :=
| one_named e s : own_name e s -> own_names e s
| numbered_range n m s s' : number_said n s -> number_said m s' -> n <> m -> own_names (SeSubtitleRange (mkRange n m)) (s ++ lit "–" ++ s' ++ lit ".").
Inductive maybe_named : option sr_element -> str -> Prop :=
| no_name : maybe_named None []
| with_name e s : own_name e s -> maybe_named (Some e) (s ++ lit " ").
Definition subtitle_word (s : str) : Prop := exists w, Forall small_letter w /\ s = lit "alcím" ++ w.
Definition and_before_it : list str := map lit ["és az azt megelőző"; "és az azokat megelőző"; "és a §-t megelőző"; "és a megelőző"]%string.
(** The article it is added with, the subtitle itself, and what is found *)
Inductive subtitle_said (a : act_id) (before : str) : option article_id -> option sr_element -> list out_ref -> str -> Prop :=
| article_then_subtitle x s z w : one_article x s -> In z and_before_it -> subtitle_word w ->
    subtitle_said a before (Some x) None [article_found a (before ++ lit " ") s x] (lit " " ++ s ++ lit " " ++ z ++ lit " " ++ w)
| subtitle_alone e s w : maybe_named e s -> subtitle_word w -> subtitle_said a before None e [] (lit " " ++ s ++ w)
| subtitle_then_article e s w x s' : maybe_named e s -> subtitle_word w -> one_article x s' ->
    subtitle_said a before (Some x) e [article_found a (before ++ lit " " ++ s ++ w ++ lit " és ") s' x] (lit " " ++ s ++ w ++ lit " és " ++ s').
(** The position: with an article, beside an article, or that of the subtitle itself *)
Definition subtitle_position (x : option article_id) (near own : option sr_element) : sr_element :=
  match x, near, own with
  | Some x, _, _ => SeSubtitleBeforeArticleInclusive x
  | _, Some e, _ => e
  | _, _, Some e => e
  | None, None, None => SeSubtitleUnknown
  end.

(** ** Sentences *)
Definition subtitle_replacements : list str :=
  flat_map (fun a => flat_map (fun b => map (fun c => a ++ lit "alcím " ++ b ++ c ++ lit "lép")
    [[]; lit "és rendelkezés "]) [[]; lit "cím "]) [[]; lit "rendelkezés és "].
Definition subtitle_endings : list str :=
  replacement_endings ++ flat_map (fun f => map (fun w => lit " helyébe " ++ f ++ lit " " ++ w ++ lit ":") subtitle_replacements) following.
Inductive within_element : option sr_parent -> str -> Prop :=
| in_no_element : within_element None []
| in_element p k s : element_said p k s -> within_element (Some p) (lit " " ++ s).
Inductive subtitle_change (a : act_id) (before : str) : struct_ref -> bool -> list out_ref -> str -> Prop :=
| subtitle_added p sp near l s f x own l' s' e :
    within_element p sp -> near_said a (before ++ sp) near l s -> In f following ->
    subtitle_said a (before ++ sp ++ s ++ lit " " ++ f) x own l' s' -> In e insertion_endings ->
    subtitle_change a before (mkSRef (Some a) None p (subtitle_position x near own) false) true (l ++ l') (sp ++ s ++ lit " " ++ f ++ s' ++ e)
| subtitle_replaced_near p sp near l s x own l' s' e :
    within_element p sp -> near_said a (before ++ sp) (Some near) l s ->
    subtitle_said a (before ++ sp ++ s) x own l' s' -> In e subtitle_endings ->
    subtitle_change a before (mkSRef (Some a) None p (subtitle_position x (Some near) own) false) false (l ++ l') (sp ++ s ++ s' ++ e)
| subtitle_replaced_with p sp x s z w e :
    within_element p sp -> one_article x s -> In z and_before_it -> subtitle_word w -> In e subtitle_endings ->
    subtitle_change a before (mkSRef (Some a) None p (SeSubtitleBeforeArticleInclusive x) false) false
      [article_found a (before ++ sp ++ lit " ") s x] (sp ++ lit " " ++ s ++ lit " " ++ z ++ lit " " ++ w ++ e)
| subtitle_replaced own s w t s' e :
    own_names own s -> subtitle_word w -> title_only_said t s' -> In e structural_endings ->
    subtitle_change a before (mkSRef (Some a) None None own t) false [] (lit " " ++ s ++ lit " " ++ w ++ s' ++ e).
Inductive subtitle_sentence (m : list (str * act_id)) (a : act_id) : str -> sem_info -> Prop :=
| subtitle_sentence_of az title name r i l s : In az the -> act_named m a s title name -> subtitle_change a (az ++ title ++ name) r i l s ->
    subtitle_sentence m a (az ++ title ++ name ++ s)
      (mkSi (mkOut (utf8_len (az ++ title)) (utf8_len (az ++ title ++ name)) (only_act a) :: l) [] (Some (PhStructural (mkSbaPhrase r i)))).
