(** Model of src/util/walker.rs.  No proofs in this file.

    The two visitor traits are records of two functions which work on a state of any type [S] (the visitor
    itself, [&mut self]).  The Rust methods are generic in the element type and cannot look at it; here they
    may, so the visitors of the model include those of the code.  A visitor may fail or panic after having
    changed its state (or, for the mutable one, the element). *)
From Verif Require Export ModelTypes.

(** The five types of sub-article elements *)
Inductive kind := KPar | KAlpha | KNum | KAlphaSub | KNumSub.
Definition ident_of (k : kind) : Type :=
  match k with KPar => paragraph_id | KAlpha => hic | KNum => numeric | KAlphaSub => prefixed | KNumSub => numeric end.
Definition children_of_kind (k : kind) : Type :=
  match k with KPar => par_children | KAlpha => alpha_children | KNum => num_children | KAlphaSub | KNumSub => Empty_set end.
Definition elem (k : kind) : Type := sae (ident_of k) (children_of_kind k).
(** to_element.rs:53-93 the reference of an element *)
Definition own_ref (k : kind) : ident_of k -> reference :=
  match k with
  | KPar => ref_of_paragraph_elem | KAlpha => ref_of_alpha_point | KNum => ref_of_numeric_point
  | KAlphaSub => ref_of_alpha_subpoint | KNumSub => ref_of_numeric_subpoint
  end.

(** The result of [?] on the first of two steps, with the state *)
Definition and_then {S A B : Type} (r : S * outcome A) (k : A -> S -> S * outcome B) : S * outcome B :=
  match r with (s, Ok a) => k a s | (s, Err) => (s, Err) | (s, Panic) => (s, Panic) end.

Section Walk.
  Context {S : Type}.
  (** walker.rs:33-53 SAEVisitor *)
  Record visitor := mkVisitor {
    on_enter : forall k, reference -> elem k -> S -> S * outcome unit;
    on_exit : forall k, reference -> elem k -> S -> S * outcome unit }.
  Variable v : visitor.
  (** walker.rs:58-65 Vec *)
  Fixpoint walk_list {A} (f : A -> S -> S * outcome unit) (l : list A) (s : S) : S * outcome unit :=
    match l with
    | [] => (s, Ok tt)
    | x :: l' => and_then (f x s) (fun _ => walk_list f l')
    end.
  (** walker.rs:89-106 SubArticleElement *)
  Definition walk_elem (k : kind) (wc : reference -> children_of_kind k -> S -> S * outcome unit)
      (base : reference) (e : elem k) (s : S) : S * outcome unit :=
    and_then (s, relative_to (own_ref k (s_id e)) base) (fun r s =>
    and_then (on_enter v k r e s) (fun _ s =>
    and_then (match s_body e with BChildren _ c _ => wc r c s | BText _ => (s, Ok tt) end)
      (fun _ s => on_exit v k r e s))).
  (** walker.rs:138-150 the empty enums *)
  Definition walk_none (base : reference) (c : Empty_set) (s : S) : S * outcome unit := match c with end.
  (** walker.rs:122-136 AlphabeticPointChildren, NumericPointChildren *)
  Definition walk_alpha_children (base : reference) (c : alpha_children) (s : S) : S * outcome unit :=
    match c with
    | AcAlpha l => walk_list (walk_elem KAlphaSub walk_none base) l s
    | AcNum l => walk_list (walk_elem KNumSub walk_none base) l s
    end.
  Definition walk_num_children (base : reference) (c : num_children) (s : S) : S * outcome unit :=
    match c with NcAlpha l => walk_list (walk_elem KAlphaSub walk_none base) l s end.
  (** walker.rs:108-120 ParagraphChildren: quoted blocks and amendments are not entered *)
  Definition walk_par_children (base : reference) (c : par_children) (s : S) : S * outcome unit :=
    match c with
    | PcAlpha l => walk_list (walk_elem KAlpha walk_alpha_children base) l s
    | PcNum l => walk_list (walk_elem KNum walk_num_children base) l s
    | PcQuoted _ | PcBlock _ | PcStruct _ => (s, Ok tt)
    end.
  (** walker.rs:83-87 Article *)
  Definition walk_article (base : reference) (a : article) (s : S) : S * outcome unit :=
    and_then (s, relative_to (ref_of_article_elem (ar_ident a)) base) (fun r s =>
      walk_list (walk_elem KPar walk_par_children r) (ar_children a) s).
  (** walker.rs:73-81 ActChild *)
  Definition walk_child (base : reference) (c : act_child) (s : S) : S * outcome unit :=
    match c with ChArticle a => walk_article base a s | ChStruct _ | ChSubtitle _ => (s, Ok tt) end.
  (** walker.rs:67-71 Act; [Act::reference], to_element.rs:33-37 *)
  Definition walk_act (a : act) (s : S) : S * outcome unit :=
    walk_list (walk_child (ref_of_act (ac_id a))) (ac_children a) s.
End Walk.
Arguments visitor : clear implicits.
Arguments mkVisitor {S}.
Arguments on_enter {S}.
Arguments on_exit {S}.

(** The same with [&mut]: each function also returns the element as it is left behind. *)
Section WalkMut.
  Context {S : Type}.
  (** walker.rs:33-53 SAEVisitorMut *)
  Record visitor_mut := mkVisitorMut {
    on_enter_mut : forall k, reference -> elem k -> S -> (elem k * S) * outcome unit;
    on_exit_mut : forall k, reference -> elem k -> S -> (elem k * S) * outcome unit }.
  Variable v : visitor_mut.
  Fixpoint mut_list {A} (f : A -> S -> (A * S) * outcome unit) (l : list A) (s : S) : (list A * S) * outcome unit :=
    match l with
    | [] => (([], s), Ok tt)
    | x :: l' =>
        match f x s with
        | ((x', s'), Ok _) => let '((l2, s2), r) := mut_list f l' s' in ((x' :: l2, s2), r)
        | ((x', s'), r) => ((x' :: l', s'), r)
        end
    end.
  Definition with_body {I C} (e : sae I C) (b : sae_body C) : sae I C := mkSae (s_id e) b (s_si e) (s_change e).
  (** walker.rs:96-105; the body looked at is that of the element as changed by [on_enter] *)
  Definition mut_elem (k : kind) (wc : reference -> children_of_kind k -> S -> (children_of_kind k * S) * outcome unit)
      (base : reference) (e : elem k) (s : S) : (elem k * S) * outcome unit :=
    match relative_to (own_ref k (s_id e)) base with
    | Err => ((e, s), Err)
    | Panic => ((e, s), Panic)
    | Ok r =>
        and_then (on_enter_mut v k r e s) (fun _ es =>
        and_then (match s_body (fst es) with
                  | BChildren i c w => let '((c', s'), o) := wc r c (snd es) in ((with_body (fst es) (BChildren i c' w), s'), o)
                  | BText _ => (es, Ok tt)
                  end)
          (fun _ es => on_exit_mut v k r (fst es) (snd es)))
    end.
  Definition mut_none (base : reference) (c : Empty_set) (s : S) : (Empty_set * S) * outcome unit := match c with end.
  Definition mut_map {A B} (g : A -> B) (r : (A * S) * outcome unit) : (B * S) * outcome unit :=
    let '((a, s), o) := r in ((g a, s), o).
  Definition mut_alpha_children (base : reference) (c : alpha_children) (s : S) : (alpha_children * S) * outcome unit :=
    match c with
    | AcAlpha l => mut_map AcAlpha (mut_list (mut_elem KAlphaSub mut_none base) l s)
    | AcNum l => mut_map AcNum (mut_list (mut_elem KNumSub mut_none base) l s)
    end.
  Definition mut_num_children (base : reference) (c : num_children) (s : S) : (num_children * S) * outcome unit :=
    match c with NcAlpha l => mut_map NcAlpha (mut_list (mut_elem KAlphaSub mut_none base) l s) end.
  Definition mut_par_children (base : reference) (c : par_children) (s : S) : (par_children * S) * outcome unit :=
    match c with
    | PcAlpha l => mut_map PcAlpha (mut_list (mut_elem KAlpha mut_alpha_children base) l s)
    | PcNum l => mut_map PcNum (mut_list (mut_elem KNum mut_num_children base) l s)
    | PcQuoted _ | PcBlock _ | PcStruct _ => ((c, s), Ok tt)
    end.
  Definition mut_article (base : reference) (a : article) (s : S) : (article * S) * outcome unit :=
    match relative_to (ref_of_article_elem (ar_ident a)) base with
    | Err => ((a, s), Err)
    | Panic => ((a, s), Panic)
    | Ok r => mut_map (fun l => mkArticle (ar_ident a) (ar_title a) l (ar_change a))
                (mut_list (mut_elem KPar mut_par_children r) (ar_children a) s)
    end.
  Definition mut_child (base : reference) (c : act_child) (s : S) : (act_child * S) * outcome unit :=
    match c with ChArticle a => mut_map ChArticle (mut_article base a s) | ChStruct _ | ChSubtitle _ => ((c, s), Ok tt) end.
  Definition mut_act (a : act) (s : S) : (act * S) * outcome unit :=
    mut_map (fun l => mkActS (ac_id a) (ac_subject a) (ac_preamble a) (ac_date a) (ac_abbrevs a) l)
      (mut_list (mut_child (ref_of_act (ac_id a))) (ac_children a) s).
End WalkMut.
Arguments visitor_mut : clear implicits.
Arguments mkVisitorMut {S}.
Arguments on_enter_mut {S}.
Arguments on_exit_mut {S}.
