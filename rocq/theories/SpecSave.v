(** What an act must be like for it to be stored: every identifier and number in the range of its type, every reference well formed,
    dates among those which can be written ([D]), amendments nested less than [n] deep. *)
From Verif Require Export ModelSave SpecRef SpecSem.

Definition if_some {A} (P : A -> Prop) (o : option A) : Prop := forall x, o = Some x -> P x.
Definition ref_fits (r : reference) : Prop := well_formed r /\ parts_ok r.
Definition hic_fits (x : hic) : Prop := hic_ok x = true.
Definition numeric_fits (x : numeric) : Prop := numeric_ok x = true.
Definition article_id_fits (x : article_id) : Prop := article_ok x = true.
(** Digraphs are not told from two letters *)
Definition prefixed_fits (x : prefixed) : Prop := prefixed_ok x = true /\ prefixed_latin x = true.
Definition act_id_fits (x : act_id) : Prop := act_ok x = true.
Definition abbrevs_fit (m : list (str * act_id)) : Prop := is_map m /\ Forall (fun p => act_id_fits (snd p)) m.

Definition sr_element_fits (e : sr_element) : Prop :=
  match e with
  | SePart i | SeTitle i | SeChapter i | SeSubtitleId i => numeric_fits i
  | SeSubtitleRange r => range_of numeric_fits r
  | SeSubtitleTitle _ | SeSubtitleUnknown => True
  | SeSubtitleAfterArticle a | SeSubtitleBeforeArticle a | SeSubtitleBeforeArticleInclusive a => article_id_fits a
  | SeArticle r => range_of article_id_fits r
  end.
Definition sr_parent_fits (e : sr_parent) : Prop :=
  match e with
  | SpPart i | SpTitle i | SpChapter i | SpSubtitleId i => numeric_fits i
  | SpSubtitleRange r => range_of numeric_fits r
  | SpSubtitleTitle _ => True
  end.
Definition struct_ref_fits (r : struct_ref) : Prop :=
  if_some act_id_fits (sr_act r) /\ if_some numeric_fits (sr_book r) /\ if_some sr_parent_fits (sr_par r) /\ sr_element_fits (sr_elem r).

Section Fits.
Variable D : date -> Prop.
Definition out_fits (o : out_ref) : Prop := (o_start o < 2 ^ 64)%N /\ (o_end o < 2 ^ 64)%N /\ ref_fits (o_ref o).
Definition ta_ref_fits (t : ta_ref) : Prop :=
  match t with TaSae r _ | TaArticleTitle r => ref_fits r | TaStructural r => struct_ref_fits r end.
Definition ta_fits (t : text_amendment) : Prop := ta_ref_fits (ta_reference t).
Definition ed_type_fits (e : ed_type) : Prop :=
  match e with
  | EdDate d => D d
  | EdDaysAfter n => (n < 2 ^ 16)%N
  | EdDayInMonth m d => if_some (fun m => m < 2 ^ 8)%N m /\ (d < 2 ^ 16)%N
  end.
Definition enforcement_fits (e : enforcement) : Prop :=
  Forall ref_fits (ed_positions e) /\ Forall struct_ref_fits (ed_structural e) /\ ed_type_fits (ed_date e) /\ if_some D (ed_repeal e).
Definition repeal_fits (r : repeal_ref) : Prop := match r with RrRef r => ref_fits r | RrStructural r => struct_ref_fits r end.
Definition phrase_fits (p : phrase) : Prop :=
  match p with
  | PhBlock b => ref_fits (ba_position b)
  | PhEnforcement e => enforcement_fits e
  | PhRepeal l => Forall repeal_fits l
  | PhText l => Forall ta_fits l
  | PhStructural b => struct_ref_fits (sba_position b)
  end.
Definition si_fits (i : sem_info) : Prop :=
  Forall out_fits (si_outgoing i) /\ abbrevs_fit (si_abbrevs i) /\ if_some phrase_fits (si_phrase i).
Definition cause_fits (c : change_cause) : Prop := match c with CcAmendment r => ref_fits r | _ => True end.
Definition change_fits (c : last_change) : Prop := D (lc_date c) /\ cause_fits (lc_cause c).
Definition body_fits {C} (P : C -> Prop) (b : sae_body C) : Prop := match b with BText _ => True | BChildren _ c _ => P c end.
Definition sae_fits {I C} (P : I -> Prop) (Q : C -> Prop) (e : sae I C) : Prop :=
  P (s_id e) /\ body_fits Q (s_body e) /\ si_fits (s_si e) /\ if_some change_fits (s_change e).
Definition no_children (c : Empty_set) : Prop := True.
Definition alpha_sub_fits : alpha_subpoint -> Prop := sae_fits prefixed_fits no_children.
Definition num_sub_fits : num_subpoint -> Prop := sae_fits numeric_fits no_children.
Definition alpha_children_fit (c : alpha_children) : Prop :=
  match c with AcAlpha l => Forall alpha_sub_fits l | AcNum l => Forall num_sub_fits l end.
Definition num_children_fit (c : num_children) : Prop := match c with NcAlpha l => Forall alpha_sub_fits l end.
Definition alpha_fits : alpha_point -> Prop := sae_fits hic_fits alpha_children_fit.
Definition num_fits : num_point -> Prop := sae_fits numeric_fits num_children_fit.
Definition struct_elem_fits (e : struct_elem) : Prop := numeric_fits (se_id e) /\ if_some change_fits (se_change e).
Definition subtitle_fits (e : subtitle) : Prop := if_some numeric_fits (st_id e) /\ if_some change_fits (st_change e).
Definition article_fits {P} (Q : P -> Prop) (a : article_of P) : Prop :=
  article_id_fits (ar_ident a) /\ Forall Q (ar_children a) /\ if_some change_fits (ar_change a).
Definition child_fits {P} (Q : P -> Prop) (c : act_child_of P) : Prop :=
  match c with ChStruct e => struct_elem_fits e | ChSubtitle s => subtitle_fits s | ChArticle a => article_fits Q a end.
Definition ba_children_fit {P} (Q : P -> Prop) (c : ba_children_of P) : Prop :=
  match c with
  | BcParagraph l => Forall Q l | BcAlpha l => Forall alpha_fits l | BcNum l => Forall num_fits l
  | BcAlphaSub l => Forall alpha_sub_fits l | BcNumSub l => Forall num_sub_fits l
  end.
Fixpoint par_children_fit (n : nat) (c : par_children) : Prop :=
  match n with
  | O => False
  | S n' =>
      match c with
      | PcAlpha l => Forall alpha_fits l
      | PcNum l => Forall num_fits l
      | PcQuoted _ => True
      | PcBlock b => ba_children_fit (sae_fits (if_some numeric_fits) (par_children_fit n')) (bk_children b)
      | PcStruct b => Forall (child_fits (sae_fits (if_some numeric_fits) (par_children_fit n'))) (sb_children b)
      end
  end.
Definition paragraph_fits (n : nat) : paragraph -> Prop := sae_fits (if_some numeric_fits) (par_children_fit n).
Definition act_fits (n : nat) (a : act) : Prop :=
  act_id_fits (ac_id a) /\ D (ac_date a) /\ abbrevs_fit (ac_abbrevs a) /\ Forall (child_fits (paragraph_fits n)) (ac_children a).
(** Dates are read as they were written, and all dates read can be written *)
Definition reads_dates (dp : str -> outcome date) : Prop :=
  (forall d, D d -> dp (show_date d) = Ok d) /\ (forall s d, dp s = Ok d -> D d) /\ (forall s, dp s <> Panic).
End Fits.
