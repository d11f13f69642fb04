(** Independent specifications for references (C08-C17): everything is phrased with the five levels
    and the part present at each level. *)
From Verif Require Export ModelRef SpecIdent.

Inductive level := LAct | LArticle | LParagraph | LPoint | LSubpoint.
Definition depth (l : level) : nat :=
  match l with LAct => 0 | LArticle => 1 | LParagraph => 2 | LPoint => 3 | LSubpoint => 4 end.
Definition finer (a b : level) : Prop := (depth b < depth a)%nat.

(** The part of a reference at a level; [PartEmpty] when missing. *)
Definition part (r : reference) (l : level) : any_part :=
  match l with
  | LAct => match f_act r with Some x => PartAct x | None => PartEmpty end
  | LArticle => match f_article r with Some x => PartArticle x | None => PartEmpty end
  | LParagraph => match f_paragraph r with Some x => PartParagraph x | None => PartEmpty end
  | LPoint => match f_point r with Some x => PartPoint x | None => PartEmpty end
  | LSubpoint => match f_subpoint r with Some x => PartSubpoint x | None => PartEmpty end
  end.
Definition present (r : reference) (l : level) : Prop := part r l <> PartEmpty.
(** [l] is the finest level present. *)
Definition finest (r : reference) (l : level) : Prop :=
  present r l /\ forall l', finer l' l -> ~ present r l'.
Definition coarsest (r : reference) (l : level) : Prop :=
  present r l /\ forall l', finer l l' -> ~ present r l'.

(** A part that stands for more than one element. *)
Definition real_range (p : any_part) : Prop :=
  match p with
  | PartArticle r => r_start r <> r_end r
  | PartParagraph r => r_start r <> r_end r
  | PartPoint (PtNum r) => r_start r <> r_end r
  | PartPoint (PtAlpha r) => r_start r <> r_end r
  | PartSubpoint (SpNum r) => r_start r <> r_end r
  | PartSubpoint (SpAlpha r) => r_start r <> r_end r
  | _ => False
  end.

(** Well-formedness as documented on the type: no forbidden gaps, and only the finest part is a range. *)
Record well_formed (r : reference) : Prop := {
  wf_subpoint : present r LSubpoint -> present r LArticle \/ present r LParagraph -> present r LPoint;
  wf_act : present r LAct -> (exists l, finer l LArticle /\ present r l) -> present r LArticle;
  wf_range : forall l l', real_range (part r l) -> finer l' l -> ~ present r l'
}.

(** First/last element of a part. *)
Definition start_of (p : any_part) : any_part :=
  match p with
  | PartArticle r => PartArticle (mkRange (r_start r) (r_start r))
  | PartParagraph r => PartParagraph (mkRange (r_start r) (r_start r))
  | PartPoint (PtNum r) => PartPoint (PtNum (mkRange (r_start r) (r_start r)))
  | PartPoint (PtAlpha r) => PartPoint (PtAlpha (mkRange (r_start r) (r_start r)))
  | PartSubpoint (SpNum r) => PartSubpoint (SpNum (mkRange (r_start r) (r_start r)))
  | PartSubpoint (SpAlpha r) => PartSubpoint (SpAlpha (mkRange (r_start r) (r_start r)))
  | _ => p
  end.
Definition end_of (p : any_part) : any_part :=
  match p with
  | PartArticle r => PartArticle (mkRange (r_end r) (r_end r))
  | PartParagraph r => PartParagraph (mkRange (r_end r) (r_end r))
  | PartPoint (PtNum r) => PartPoint (PtNum (mkRange (r_end r) (r_end r)))
  | PartPoint (PtAlpha r) => PartPoint (PtAlpha (mkRange (r_end r) (r_end r)))
  | PartSubpoint (SpNum r) => PartSubpoint (SpNum (mkRange (r_end r) (r_end r)))
  | PartSubpoint (SpAlpha r) => PartSubpoint (SpAlpha (mkRange (r_end r) (r_end r)))
  | _ => p
  end.
(** The range from the start of one part to the end of another of the same kind. *)
Definition span_part (p q : any_part) : option any_part :=
  match p, q with
  | PartArticle a, PartArticle b => Some (PartArticle (mkRange (r_start a) (r_end b)))
  | PartParagraph a, PartParagraph b => Some (PartParagraph (mkRange (r_start a) (r_end b)))
  | PartPoint (PtNum a), PartPoint (PtNum b) => Some (PartPoint (PtNum (mkRange (r_start a) (r_end b))))
  | PartPoint (PtAlpha a), PartPoint (PtAlpha b) => Some (PartPoint (PtAlpha (mkRange (r_start a) (r_end b))))
  | PartSubpoint (SpNum a), PartSubpoint (SpNum b) => Some (PartSubpoint (SpNum (mkRange (r_start a) (r_end b))))
  | PartSubpoint (SpAlpha a), PartSubpoint (SpAlpha b) => Some (PartSubpoint (SpAlpha (mkRange (r_start a) (r_end b))))
  | _, _ => None
  end.

(** ** C08: everything the public API can produce.
    [via_builder] covers any calls on a fresh builder; deserialization builds any field combination and
    then checks it ([serde(try_from)]). *)
Inductive part_call :=
| CSetAct (a : act_id) | CSetArticle (a : ref_article) | CSetParagraph (p : ref_paragraph)
| CSetPoint (p : ref_point) | CSetSubpoint (s : ref_subpoint)
| CResetArticle | CResetParagraph | CResetPoint | CResetSubpoint.
Definition do_call (c : part_call) (b : reference) : reference :=
  match c with
  | CSetAct a => set_act a b
  | CSetArticle a => set_article a b
  | CSetParagraph p => set_paragraph p b
  | CSetPoint p => set_point p b
  | CSetSubpoint s => set_subpoint s b
  | CResetArticle => reset_article b
  | CResetParagraph => reset_paragraph b
  | CResetPoint => reset_point b
  | CResetSubpoint => reset_subpoint b
  end.
Definition do_calls (cs : list part_call) : reference := fold_left (fun b c => do_call c b) cs empty_ref.

Inductive obtainable : reference -> Prop :=
| ob_default : obtainable empty_ref
| ob_builder : forall cs r, build (do_calls cs) = Ok r -> obtainable r
| ob_deserialized : forall u r, try_ref u = Ok r -> obtainable r
| ob_compact : forall s r, ref_parse_compact s = Ok r -> obtainable r
| ob_act : forall a, obtainable (ref_of_act a)
| ob_article : forall a, obtainable (ref_of_article a)
| ob_act_article : forall a b, obtainable (ref_of_act_article a b)
| ob_article_elem : forall i, obtainable (ref_of_article_elem i)
| ob_paragraph_elem : forall i, obtainable (ref_of_paragraph_elem i)
| ob_numeric_point : forall i, obtainable (ref_of_numeric_point i)
| ob_alpha_point : forall i, obtainable (ref_of_alpha_point i)
| ob_numeric_subpoint : forall i, obtainable (ref_of_numeric_subpoint i)
| ob_alpha_subpoint : forall i, obtainable (ref_of_alpha_subpoint i)
| ob_make_range : forall a b r, obtainable a -> obtainable b -> make_range a b = Ok r -> obtainable r
| ob_relative : forall a b r, obtainable a -> obtainable b -> relative_to a b = Ok r -> obtainable r
| ob_parent : forall a, obtainable a -> obtainable (parent a)
| ob_first : forall a, obtainable a -> obtainable (first_in_range a)
| ob_last : forall a, obtainable a -> obtainable (last_in_range a)
| ob_without_act : forall a, obtainable a -> obtainable (without_act a).

(** ** C09: what a builder holds, by looking at the calls backwards. *)
Definition call_level (c : part_call) : level :=
  match c with
  | CSetAct _ => LAct
  | CSetArticle _ | CResetArticle => LArticle
  | CSetParagraph _ | CResetParagraph => LParagraph
  | CSetPoint _ | CResetPoint => LPoint
  | CSetSubpoint _ | CResetSubpoint => LSubpoint
  end.
Definition call_value (c : part_call) : any_part :=
  match c with
  | CSetAct a => PartAct a
  | CSetArticle a => PartArticle a
  | CSetParagraph p => PartParagraph p
  | CSetPoint p => PartPoint p
  | CSetSubpoint s => PartSubpoint s
  | _ => PartEmpty
  end.
(** The last call at level [l] or coarser decides. *)
Fixpoint last_written (calls_backwards : list part_call) (l : level) : any_part :=
  match calls_backwards with
  | [] => PartEmpty
  | c :: cs =>
      if Nat.eqb (depth (call_level c)) (depth l) then call_value c
      else if Nat.ltb (depth (call_level c)) (depth l) then PartEmpty
      else last_written cs l
  end.

(** ** C13/C14 *)
(** No level between the article and the finest present level is missing. *)
Definition no_skip (r : reference) : Prop :=
  forall l l', present r l -> finer l l' -> l' <> LAct -> present r l'.
(** [a] is a proper prefix of [b]: same act (or both none), [b] has all parts of [a], and something more. *)
Definition proper_prefix (a b : reference) : Prop :=
  part a LAct = part b LAct /\
  (forall l, present a l -> part a l = part b l) /\
  (exists l, present b l /\ ~ present a l).

(** An element position: one identifier (or none) at each level below the act. *)
Inductive point_key := KNum (n : numeric) | KAlpha (h : hic).
Inductive subpoint_key := KSNum (n : numeric) | KSAlpha (p : prefixed).
Record position := mkPos {
  p_act : option act_id; p_article : option article_id; p_paragraph : option numeric;
  p_point : option point_key; p_subpoint : option subpoint_key }.
Definition within {T} (cmp : T -> T -> comparison) (r : range T) (x : T) : Prop :=
  cmp (r_start r) x <> Gt /\ cmp x (r_end r) <> Gt.
(** [p] is one of the elements [r] stands for: inside each given range, nothing at a skipped level, anything
    below the finest given level. *)
Definition denotes (r : reference) (p : position) : Prop :=
  f_act r = p_act p /\
  match f_article r with
  | Some a => exists x, p_article p = Some x /\ within article_cmp a x
  | None => (present r LParagraph \/ present r LPoint \/ present r LSubpoint) -> p_article p = None
  end /\
  match f_paragraph r with
  | Some a => exists x, p_paragraph p = Some x /\ within numeric_cmp a x
  | None => (present r LPoint \/ present r LSubpoint) -> p_paragraph p = None
  end /\
  match f_point r with
  | Some (PtNum a) => exists x, p_point p = Some (KNum x) /\ within numeric_cmp a x
  | Some (PtAlpha a) => exists x, p_point p = Some (KAlpha x) /\ within hic_cmp a x
  | None => present r LSubpoint -> p_point p = None
  end /\
  match f_subpoint r with
  | Some (SpNum a) => exists x, p_subpoint p = Some (KSNum x) /\ within numeric_cmp a x
  | Some (SpAlpha a) => exists x, p_subpoint p = Some (KSAlpha x) /\ within prefixed_cmp a x
  | None => True
  end.
(** All ranges go forward. *)
Definition ordered (r : reference) : Prop :=
  match f_article r with Some a => article_cmp (r_start a) (r_end a) <> Gt | None => True end /\
  match f_paragraph r with Some a => numeric_cmp (r_start a) (r_end a) <> Gt | None => True end /\
  match f_point r with
  | Some (PtNum a) => numeric_cmp (r_start a) (r_end a) <> Gt
  | Some (PtAlpha a) => hic_cmp (r_start a) (r_end a) <> Gt
  | None => True
  end /\
  match f_subpoint r with
  | Some (SpNum a) => numeric_cmp (r_start a) (r_end a) <> Gt
  | Some (SpAlpha a) => prefixed_cmp (r_start a) (r_end a) <> Gt
  | None => True
  end.
(** Wherever [r] skips a level, [o] has nothing at that level either. *)
Definition skips_agree (r o : reference) : Prop :=
  forall l l', l <> LAct -> ~ present r l -> finer l' l -> present r l' -> ~ present o l.

(** ** Validity of identifiers (ranges of the Rust integer types, letters a-z) and, for the prefixed
    letters, no digraph. *)
Definition parts_ok (r : reference) : Prop :=
  (forall a, f_act r = Some a -> act_ok a = true) /\
  (forall a, f_article r = Some a -> range_of (fun x => article_ok x = true) a) /\
  (forall a, f_paragraph r = Some a -> range_of (fun x => numeric_ok x = true) a) /\
  (forall a, f_point r = Some (PtNum a) -> range_of (fun x => numeric_ok x = true) a) /\
  (forall a, f_point r = Some (PtAlpha a) -> range_of (fun x => hic_ok x = true) a) /\
  (forall a, f_subpoint r = Some (SpNum a) -> range_of (fun x => numeric_ok x = true) a) /\
  (forall a, f_subpoint r = Some (SpAlpha a) ->
     range_of (fun x => prefixed_ok x = true /\ prefixed_latin x = true) a).

(** ** Order of references (C05): the first differing level decides, a missing part comes first,
    ranges are ordered by their start, then by their end. The orders of the identifiers themselves are
    those of C05_legal_order. *)
Definition range_before {T} (cmp : T -> T -> comparison) (x y : range T) : Prop :=
  cmp (r_start x) (r_start y) = Lt \/ (r_start x = r_start y /\ cmp (r_end x) (r_end y) = Lt).
Definition part_before (p q : any_part) : Prop :=
  match p, q with
  | _, PartEmpty => False
  | PartEmpty, _ => True
  | PartAct a, PartAct b => act_cmp a b = Lt
  | PartArticle a, PartArticle b => range_before article_cmp a b
  | PartParagraph a, PartParagraph b => range_before numeric_cmp a b
  | PartPoint (PtNum a), PartPoint (PtNum b) => range_before numeric_cmp a b
  | PartPoint (PtNum _), PartPoint (PtAlpha _) => True
  | PartPoint (PtAlpha a), PartPoint (PtAlpha b) => range_before hic_cmp a b
  | PartSubpoint (SpNum a), PartSubpoint (SpNum b) => range_before numeric_cmp a b
  | PartSubpoint (SpNum _), PartSubpoint (SpAlpha _) => True
  | PartSubpoint (SpAlpha a), PartSubpoint (SpAlpha b) => range_before prefixed_cmp a b
  | _, _ => False
  end.
Definition reference_before (x y : reference) : Prop :=
  exists l, (forall l', finer l l' -> part x l' = part y l') /\ part_before (part x l) (part y l).
