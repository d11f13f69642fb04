(** Specification for the walkers (C33, C34, C48): the elements of an act with their positions, in document
    order, and the sequence of calls a visitor should get. *)
From Coq Require Export Permutation.
From Verif Require Export ModelWalk.

Inductive any_elem := El (k : kind) (e : elem k).
Definition any_id_kind (x : any_elem) : kind := let 'El k _ := x in k.

(** ** Positions, written out *)
Definition pos_article (c : act_id) (a : article_id) : reference := mkRef (Some c) (Some (single a)) None None None.
Definition pos_par (c : act_id) (a : article_id) (p : paragraph_id) : reference :=
  mkRef (Some c) (Some (single a)) (option_map single p) None None.
Definition pos_point (c : act_id) (a : article_id) (p : paragraph_id) (q : ref_point) : reference :=
  mkRef (Some c) (Some (single a)) (option_map single p) (Some q) None.
Definition pos_sub (c : act_id) (a : article_id) (p : paragraph_id) (q : ref_point) (r : ref_subpoint) : reference :=
  mkRef (Some c) (Some (single a)) (option_map single p) (Some q) (Some r).
Definition at_alpha (i : hic) : ref_point := PtAlpha (single i).
Definition at_num (i : numeric) : ref_point := PtNum (single i).
Definition at_alpha_sub (i : prefixed) : ref_subpoint := SpAlpha (single i).
Definition at_num_sub (i : numeric) : ref_subpoint := SpNum (single i).

(** ** A tree of elements with positions *)
Inductive node := Node (r : reference) (x : any_elem) (below : list node).
Section Nodes.
  Variables (c : act_id) (a : article_id).
  Definition alpha_sub_node (p : paragraph_id) (q : ref_point) (e : alpha_subpoint) : node :=
    Node (pos_sub c a p q (at_alpha_sub (s_id e))) (El KAlphaSub e) [].
  Definition num_sub_node (p : paragraph_id) (q : ref_point) (e : num_subpoint) : node :=
    Node (pos_sub c a p q (at_num_sub (s_id e))) (El KNumSub e) [].
  Definition alpha_node (p : paragraph_id) (e : alpha_point) : node :=
    Node (pos_point c a p (at_alpha (s_id e))) (El KAlpha e)
      match s_body e with
      | BText _ => []
      | BChildren _ (AcAlpha l) _ => map (alpha_sub_node p (at_alpha (s_id e))) l
      | BChildren _ (AcNum l) _ => map (num_sub_node p (at_alpha (s_id e))) l
      end.
  Definition num_node (p : paragraph_id) (e : num_point) : node :=
    Node (pos_point c a p (at_num (s_id e))) (El KNum e)
      match s_body e with
      | BText _ => []
      | BChildren _ (NcAlpha l) _ => map (alpha_sub_node p (at_num (s_id e))) l
      end.
  Definition par_node (e : paragraph) : node :=
    Node (pos_par c a (s_id e)) (El KPar e)
      match s_body e with
      | BChildren _ (PcAlpha l) _ => map (alpha_node (s_id e)) l
      | BChildren _ (PcNum l) _ => map (num_node (s_id e)) l
      | _ => []
      end.
End Nodes.
Definition act_nodes (x : act) : list node :=
  flat_map (fun a => map (par_node (ac_id x) (ar_ident a)) (ar_children a)) (act_articles x).

(** Elements in document order *)
Fixpoint preorder (n : node) : list (reference * any_elem) :=
  let 'Node r x l := n in (r, x) :: flat_map preorder l.
Definition elements (x : act) : list (reference * any_elem) := flat_map preorder (act_nodes x).
Definition positions (x : act) : list reference := map fst (elements x).

(** Calls: each element is entered, then everything below it is done, then it is left. *)
Inductive event := Enter (r : reference) (x : any_elem) | Exit (r : reference) (x : any_elem).
Fixpoint node_events (n : node) : list event :=
  let 'Node r x l := n in Enter r x :: flat_map node_events l ++ [Exit r x].
Definition act_events (x : act) : list event := flat_map node_events (act_nodes x).

(** Do the calls one by one until one fails. *)
Fixpoint run {S} (v : visitor S) (es : list event) (s : S) : S * outcome unit :=
  match es with
  | [] => (s, Ok tt)
  | ev :: es' =>
      let '(s', o) := match ev with Enter r (El k e) => on_enter v k r e s | Exit r (El k e) => on_exit v k r e s end in
      match o with Ok _ => run v es' s' | Err => (s', Err) | Panic => (s', Panic) end
  end.
(** Proper nesting, independently of any tree *)
Inductive nested : list event -> Prop :=
| nest_nil : nested []
| nest_cons r x inner rest : nested inner -> nested rest -> nested (Enter r x :: inner ++ Exit r x :: rest).
Definition entered (es : list event) : list (reference * any_elem) :=
  flat_map (fun ev => match ev with Enter r x => [(r, x)] | Exit _ _ => [] end) es.
Definition exited (es : list event) : list (reference * any_elem) :=
  flat_map (fun ev => match ev with Exit r x => [(r, x)] | Enter _ _ => [] end) es.

(** ** The mutable walker (C34) *)
(** A call with its position and result *)
Record call := mkCall { c_enter : bool; c_pos : reference; c_result : outcome unit }.
(** The same visitor, keeping a list of the calls it got *)
Definition traced {S} (v : visitor_mut S) : visitor_mut (S * list call) :=
  mkVisitorMut
    (fun k r e s => let '((e', s'), o) := on_enter_mut v k r e (fst s) in ((e', (s', snd s ++ [mkCall true r o])), o))
    (fun k r e s => let '((e', s'), o) := on_exit_mut v k r e (fst s) in ((e', (s', snd s ++ [mkCall false r o])), o)).
Definition event_pos (ev : event) : bool * reference :=
  match ev with Enter r _ => (true, r) | Exit r _ => (false, r) end.
Definition call_pos (c : call) : bool * reference := (c_enter c, c_pos c).
(** All the calls were made and went well, or the last one made failed. *)
Definition made (log : list call) (o : outcome unit) (due : list (bool * reference)) : Prop :=
  (o = Ok tt /\ map call_pos log = due /\ Forall (fun c => c_result c = Ok tt) log) \/
  (o <> Ok tt /\ exists before last after, log = before ++ [last] /\ due = map call_pos log ++ after /\
     Forall (fun c => c_result c = Ok tt) before /\ c_result last = o).
(** Entering an element leaves its body alone. *)
Definition keeps_body {S} (v : visitor_mut S) : Prop :=
  forall k r e s, s_body (fst (fst (on_enter_mut v k r e s))) = s_body e.
Definition changes_nothing {S} (v : visitor_mut S) : Prop :=
  forall k r e s, fst (fst (on_enter_mut v k r e s)) = e /\ fst (fst (on_exit_mut v k r e s)) = e.
(** The immutable visitor that does the same to the state *)
Definition forget {S} (v : visitor_mut S) : visitor S :=
  mkVisitor (fun k r e s => let '((_, s'), o) := on_enter_mut v k r e s in (s', o))
            (fun k r e s => let '((_, s'), o) := on_exit_mut v k r e s in (s', o)).
(** Only the semantic information and the last change of elements are changed. *)
Definition annotates {S} (v : visitor_mut S) : Prop :=
  (forall k r e s, s_body (fst (fst (on_enter_mut v k r e s))) = s_body e /\ s_id (fst (fst (on_enter_mut v k r e s))) = s_id e) /\
  (forall k r e s, s_body (fst (fst (on_exit_mut v k r e s))) = s_body e /\ s_id (fst (fst (on_exit_mut v k r e s))) = s_id e).
(** An act without these annotations *)
Definition bare {I C} (f : C -> C) (e : sae I C) : sae I C :=
  mkSae (s_id e) (match s_body e with BText t => BText t | BChildren i c w => BChildren i (f c) w end) si_default None.
Definition bare_sub {I} (e : sae I Empty_set) : sae I Empty_set := bare (fun c => c) e.
Definition bare_alpha (e : alpha_point) : alpha_point :=
  bare (fun c => match c with AcAlpha l => AcAlpha (map bare_sub l) | AcNum l => AcNum (map bare_sub l) end) e.
Definition bare_num (e : num_point) : num_point := bare (fun c => match c with NcAlpha l => NcAlpha (map bare_sub l) end) e.
Definition bare_par (e : paragraph) : paragraph :=
  bare (fun c => match c with PcAlpha l => PcAlpha (map bare_alpha l) | PcNum l => PcNum (map bare_num l) | _ => c end) e.
Definition bare_article (a : article) : article := mkArticle (ar_ident a) (ar_title a) (map bare_par (ar_children a)) (ar_change a).
Definition bare_child (c : act_child) : act_child := match c with ChArticle a => ChArticle (bare_article a) | _ => c end.
Definition bare_act (a : act) : act :=
  mkActS (ac_id a) (ac_subject a) (ac_preamble a) (ac_date a) (ac_abbrevs a) (map bare_child (ac_children a)).

(** What a visitor without state does to the act: each element becomes [h r e'], where [e'] is [g r e] with
    the elements below it done in the same way. *)
Section Mapped.
  Variables (g h : forall k, reference -> elem k -> elem k).
  Definition mapped (k : kind) (f : reference -> children_of_kind k -> children_of_kind k) (r : reference) (e : elem k) : elem k :=
    h k r (match s_body (g k r e) with
           | BText _ => g k r e
           | BChildren i c w => with_body (g k r e) (BChildren i (f r c) w)
           end).
  Variables (c : act_id) (a : article_id).
  Definition m_alpha_sub p q (e : alpha_subpoint) : alpha_subpoint :=
    mapped KAlphaSub (fun _ c => c) (pos_sub c a p q (at_alpha_sub (s_id e))) e.
  Definition m_num_sub p q (e : num_subpoint) : num_subpoint :=
    mapped KNumSub (fun _ c => c) (pos_sub c a p q (at_num_sub (s_id e))) e.
  Definition m_alpha p (e : alpha_point) : alpha_point :=
    mapped KAlpha (fun _ c => match c with
      | AcAlpha l => AcAlpha (map (m_alpha_sub p (at_alpha (s_id e))) l)
      | AcNum l => AcNum (map (m_num_sub p (at_alpha (s_id e))) l) end) (pos_point c a p (at_alpha (s_id e))) e.
  Definition m_num p (e : num_point) : num_point :=
    mapped KNum (fun _ c => match c with NcAlpha l => NcAlpha (map (m_alpha_sub p (at_num (s_id e))) l) end)
      (pos_point c a p (at_num (s_id e))) e.
  Definition m_par (e : paragraph) : paragraph :=
    mapped KPar (fun _ c => match c with
      | PcAlpha l => PcAlpha (map (m_alpha (s_id e)) l) | PcNum l => PcNum (map (m_num (s_id e)) l)
      | _ => c end) (pos_par c a (s_id e)) e.
End Mapped.
Definition m_act g h (x : act) : act :=
  mkActS (ac_id x) (ac_subject x) (ac_preamble x) (ac_date x) (ac_abbrevs x)
    (map (fun ch => match ch with
       | ChArticle a => ChArticle (mkArticle (ar_ident a) (ar_title a) (map (m_par g h (ac_id x) (ar_ident a)) (ar_children a)) (ar_change a))
       | _ => ch end) (ac_children x)).
Definition stateless (g h : forall k, reference -> elem k -> elem k) : visitor_mut unit :=
  mkVisitorMut (fun k r e s => ((g k r e, s), Ok tt)) (fun k r e s => ((h k r e, s), Ok tt)).

(** The same visitor, which does not say when it fails but does nothing from then on *)
Definition failure (o : outcome unit) : option (outcome unit) := match o with Ok _ => None | _ => Some o end.
Definition stubborn {S} (v : visitor_mut S) : visitor_mut (S * option (outcome unit)) :=
  mkVisitorMut
    (fun k r e s => match snd s with
       | Some _ => ((e, s), Ok tt)
       | None => let '((e', s'), o) := on_enter_mut v k r e (fst s) in ((e', (s', failure o)), Ok tt) end)
    (fun k r e s => match snd s with
       | Some _ => ((e, s), Ok tt)
       | None => let '((e', s'), o) := on_exit_mut v k r e (fst s) in ((e', (s', failure o)), Ok tt) end).

(** ** Finding elements (C48) *)
(** Siblings have different identifiers, at every level. *)
Definition distinct_ids {I C} (l : list (sae I C)) : Prop := NoDup (map s_id l).
Definition distinct_alpha (e : alpha_point) : Prop :=
  match s_body e with
  | BChildren _ (AcAlpha l) _ => distinct_ids l | BChildren _ (AcNum l) _ => distinct_ids l | BText _ => True end.
Definition distinct_num (e : num_point) : Prop :=
  match s_body e with BChildren _ (NcAlpha l) _ => distinct_ids l | BText _ => True end.
Definition distinct_par (e : paragraph) : Prop :=
  match s_body e with
  | BChildren _ (PcAlpha l) _ => distinct_ids l /\ Forall distinct_alpha l
  | BChildren _ (PcNum l) _ => distinct_ids l /\ Forall distinct_num l
  | _ => True
  end.
Definition distinct_act (x : act) : Prop :=
  NoDup (map ar_ident (act_articles x)) /\
  Forall (fun a => distinct_ids (ar_children a) /\ Forall distinct_par (ar_children a)) (act_articles x).
