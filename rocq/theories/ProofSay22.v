(** Proofs for C76: a list of references before a date. *)
From Verif Require Export ProofSay21.
From Coq Require Import Lia.
Local Open Scope peg_scope.
Local Open Scope N_scope.

Section Run.
  Variable known : list str.
  Local Notation yields := (yields known).
  Local Notation fails := (fails known).
  Section Number.
    Variables (ds w : str).
    Hypothesis num : numeral ds.
    Hypothesis oth : other w.
    Local Notation txt := (ds ++ lit "." ++ lit " " ++ w).
    Lemma txt_quiet f : (forall c, is_digit c = true -> f c = false) -> quiet f txt.
    Proof. intros H. now apply numeral_quiet. Qed.
    Lemma f_num_list_sp o p noun : In noun nouns -> (forall o t, stop t -> yields p o (ds ++ t) ds (o + utf8_len ds) t) ->
      fails (sk (l <- sep_list (range_part (sk p) (sk p) (sk dash) (T ".")) ;; sk (suffixed noun) ;; ret l)) o (lit " " ++ txt).
    Proof.
      intros I Y. assert (W : quiet is_ascii_ws txt) by now apply numeral_ws. apply f_sk_sp; [exact W|]. destruct (y_num_id known ds w num (o + 1 + utf8_len []) p Y) as [a YA].
      eapply f_bind2; [apply (y_sep_one known _ [] (o + 1) txt a _ (lit " ") w lead_none W YA lead_space); apply oth|]. apply f_bind1. now apply f_sk_suffixed.
    Qed.
    Lemma after_date : after_ref known (lit " " ++ txt).
    Proof.
      assert (W : quiet is_ascii_ws txt) by now apply numeral_ws. constructor.
      - reflexivity.
      - reflexivity.
      - intros o. apply f_sk_sp; [exact W|]. apply f_chr, txt_quiet. intros c H. apply ProofSay4.digit_cases in H. cbn [In] in H. repeat (destruct H as [<-|H]; [reflexivity|]). contradiction.
      - intros o. apply f_alt; apply f_bind1.
        + apply f_sk_sp; [exact W|]. apply f_bind1. apply (f_sep known _ [] (o + 1) txt lead_none W). intros o1. apply f_alpha_sub; [exact W|now apply az_quiet].
        + apply f_num_list_sp; [cbn; auto|]. intros o1 t S. eapply y_sliced, y_digits; [exact num|now apply stop_quiet].
      - intros o. apply f_alt; apply f_bind1.
        + apply f_sk_sp; [exact W|]. apply f_bind1. apply (f_sep known _ [] (o + 1) txt lead_none W). intros o1. apply f_alpha_point; [exact W|now apply az_quiet].
        + apply f_num_list_sp; [cbn; auto|]. intros. now apply y_num_point_digits.
      - intros o. apply f_bind1, f_sk_sp; [exact W|]. apply f_bind1. apply (f_sep known _ [] (o + 1) txt lead_none W). intros o1. apply f_paragraph_part; [exact W|]. apply txt_quiet, no_paren_digit.
    Qed.
    Lemma no_sep_date o : fails (sk list_separator) o (lit " " ++ txt).
    Proof.
      assert (W : quiet is_ascii_ws txt) by now apply numeral_ws.
      assert (H : forall s c r o, lit s = c :: r -> is_digit c = false -> fails (T s) o txt).
      { intros s c r o1 E D. apply (f_T_lead known s c r [] o1 txt lead_none W E). apply txt_quiet. intros x H. destruct (N.eqb_spec x c) as [->|]; [congruence|]. apply N.eqb_neq. congruence. }
      apply f_sk_sp; [exact W|]. unfold list_separator. apply f_bind1. apply f_alt.
      - eapply f_bind2; [apply y_none, f_alt; eapply H; reflexivity|]. cbn [one_of_sk]. repeat apply f_alt; [eapply H; reflexivity..|intros ? ?; reflexivity].
      - apply f_alt; eapply H; reflexivity.
    Qed.
  End Number.
  Lemma after_when e s t : coming_into_force e s -> after_ref known (lit " " ++ s ++ t) /\ forall o, fails (sk list_separator) o (lit " " ++ s ++ t).
  Proof.
    assert (PUB : forall p t, In p publishing -> after_ref known (lit " " ++ p ++ t) /\ forall o, fails (sk list_separator) o (lit " " ++ p ++ t)).
    { clear. intros p t I. unfold publishing in I. cbn [map flat_map app In] in I.
      repeat (destruct I as [<-|I]; [split; [constructor; [reflexivity|reflexivity|failing..]|failing]|]). contradiction. }
    intros [d x D|p I|p n x I S|p n x I S|p m w n x I M S]; [|rewrite <- !app_assoc; now apply PUB..].
    destruct (date_form d x t D) as (ds & w & E & N & W). rewrite E. split; [now apply after_date|]. intros o. now apply no_sep_date.
  Qed.

  (** ** The list *)
  Inductive ed_fed : reference -> list g_ed_ref -> list out_ref -> Prop :=
  | ed_fed_nil p : ed_fed p [] []
  | ed_fed_cons p w g o e ts out : gref_read w g o e -> lower_parts w <> [] -> well_formed (resume p w) -> ed_fed (resume p w) ts out ->
      ed_fed p (GEdRef g :: ts) (mkOut o e (resume p w) :: out).
  Lemma y_mention o r s u : readable_ref r -> lower_parts r <> [] -> said_ended (lower_parts r) s -> after_ref known u -> quiet is_ascii_ws (s ++ u) ->
    exists g, yields enforcement_date_reference o (s ++ u) (GEdRef g) (o + utf8_len s) u /\ gref_read r g o (o + utf8_len s).
  Proof.
    intros R NE S F W. destruct (y_reference_then known r s o u R S F) as (g & Y & GR). exists g. split; [|exact GR]. unfold enforcement_date_reference. apply y_alt1.
    eapply y_bind; [apply y_sk; [exact W|exact Y]|apply y_ret].
  Qed.
  Lemma list_begins p o s l : said_list p o s l -> forall u, begins (s ++ u) /\ part_first (s ++ u).
  Proof.
    intros H u. assert (E : exists w s' v, readable_ref w /\ lower_parts w <> [] /\ said_ended (lower_parts w) s' /\ s ++ u = s' ++ v).
    { destruct H as [p' o' w s' [A B C D]|p' o' w s' sep rest l' [A B C D] I _]; exists w, s'; eexists; (split; [exact A|]); (split; [intros E; rewrite E in C; now apply ended_nil in C|]); (split; [exact C|]); [reflexivity|now rewrite <- app_assoc]. }
    destruct E as (w & s' & v & A & NE & C & ->). pose proof (parts_good w A) as PG. split; [exact (proj1 (ended_begins known _ _ v 0 PG C))|].
    destruct (lower_parts w) as [|q ps]; [congruence|]. inversion PG as [|p' ps' G PG']; subst p' ps'. apply ended_split in C as (i & n & n' & P & K).
    destruct K as [(_ & e & _ & ->)|(s1 & _ & ->)]; rewrite <- !app_assoc; now apply (first_of_part q i n n').
  Qed.
  Definition ed_step : parser g_ed_ref := sk list_separator ;; sk enforcement_date_reference.
  Lemma y_ed_list p o s out : said_list p o s out -> forall o0 l u, lead l -> o0 + utf8_len l = o -> after_ref known u -> (forall o, fails (sk list_separator) o u) ->
    exists t ts o1 u1, yields (sk enforcement_date_reference) o0 (l ++ s ++ u) t o1 u1 /\ yields (many ed_step) o1 u1 ts (o + utf8_len s) u /\
      (List.length u1 < List.length (s ++ u))%nat /\ ed_fed p (t :: ts) out.
  Proof.
    induction 1 as [p o w s M|p o w s sep rest out M I SL IH]; intros o0 l u L EO F FS; destruct M as [A B C D]; (assert (NE : lower_parts w <> []) by (intros E; rewrite E in C; now apply ended_nil in C));
      (assert (LS : (1 <= List.length s)%nat) by exact (ended_long _ _ C)).
    - destruct (list_begins p o s _ (said_one p o w s (Build_mentioned _ _ _ A B C D)) u) as [BG PF]. pose proof (begins_ws _ BG) as W.
      destruct (y_mention o w s u A NE C F W) as (g & Y & G). exists (GEdRef g), [], (o + utf8_len s), u. split; [|split; [apply y_many_nil, f_bind1, FS|split; [rewrite app_length; lia|]]].
      + subst o. now apply y_sk_lead.
      + econstructor; eauto. constructor.
    - rewrite <- !app_assoc. pose proof (said_many p o w s sep rest out (Build_mentioned _ _ _ A B C D) I SL) as SM. destruct (list_begins _ _ _ _ SM u) as [BG PF]. rewrite <- !app_assoc in BG. pose proof (begins_ws _ BG) as W.
      destruct (list_begins _ _ _ _ SL u) as [BG2 PF2].
      destruct (y_mention o w s (sep ++ rest ++ u) A NE C (fo_ref _ _ (sep_follows known sep (rest ++ u) I)) W) as (g & Y & G).
      destruct (y_sep known sep (o + utf8_len s) (rest ++ u) I BG2 PF2) as (o2 & l2 & YS & L2 & E2).
      destruct (IH o2 l2 u L2 ltac:(rewrite utf8_len_app; lia) F FS) as (t & ts & o3 & u3 & Y3 & YM & LT & FD).
      exists (GEdRef g), (t :: ts), (o + utf8_len s), (sep ++ rest ++ u). split; [subst o; now apply y_sk_lead|]. split; [|split; [rewrite (app_length s); lia|econstructor; eauto]].
      eapply y_many_cons; [|eapply y_bind; [exact YS|exact Y3]|].
      + rewrite (app_length sep). lia.
      + rewrite !utf8_len_app in *. replace (o + (utf8_len s + (utf8_len sep + utf8_len rest))) with (o + (utf8_len s + utf8_len sep) + utf8_len rest) by lia. exact YM.
  Qed.
End Run.
Lemma ed_fed_out rf p ts out : ed_fed p ts out -> forall b acc, ob_start b = None -> ob_ref b = p ->
  exists b', feed_all feed_ed_ref ts b = Ok b' /\ convert_ed_refs rf ts b acc = Ok (b', acc) /\ ob_result b' = ob_result b ++ out.
Proof.
  induction 1 as [p|p w g o e ts out G NE WF _ IH]; intros b acc S R; [exists b; rewrite app_nil_r; auto|]. cbn [feed_all feed_ed_ref convert_ed_refs].
  rewrite (feed_resumed p w g o e b G NE WF S R). cbn [obind]. destruct (IH (mkOb (resume p w) (ob_result b ++ [mkOut o e (resume p w)]) None e) acc eq_refl eq_refl) as (b' & E1 & E2 & E3).
  exists b'. split; [exact E1|]. split; [exact E2|]. rewrite E3. cbn [ob_result]. now rewrite <- app_assoc.
Qed.

Section Enforced.
  Variables (rf : str -> option Z) (c : cache).
  Local Notation known := (all_abbreviations c).
  Local Notation yields := (yields known).
  Local Notation fails := (fails known).
  Lemma y_capital az u : In az the_capital -> yields beginning 0 (az ++ u) tt (utf8_len az) u.
  Proof. intros I. unfold the_capital in I. cbn [map In] in I. destruct I as [<-|[<-|[]]]; here. Qed.
  Lemma no_exception s o : part_first s -> ~ begins_with (lit "a") s -> fails excepted o s.
  Proof.
    intros P N. pose proof (first_ws _ P) as W. unfold excepted. eapply f_bind2; [apply y_none; exact (no_dash_part known [] s lead_none P o)|]. apply f_bind1, f_T; [exact W|].
    destruct (strip_prefix (lit "a") s) as [r|] eqn:E; [|reflexivity]. exfalso. apply strip_prefix_some in E. apply N. now exists r.
  Qed.
  Lemma unnamed_plain s : unnamed (ca_map c) s -> plain known s.
  Proof. intros [A B]. constructor; [exact A|]. intros k I. apply in_map_iff in I as ((k' & b) & <- & I). exact (B k' b I). Qed.
  Lemma parts_root e s info : parts_enforced (ca_map c) e s info -> exists x l, grammar_parse s known = Ok (REnforcement x) /\ convert_enforcement rf x = Ok e /\
    (exists b, feed_all feed_ed_ref (ge_refs x) ob_new = Ok b /\ ob_result b = l) /\ info = mkSi l [] (Some (PhEnforcement e)) /\ Forall (fun r => 0 < o_end r <= utf8_len s) l.
  Proof.
    intros [az q l w r I SL NA W R U E1 E2 E3]. set (u := lit " lép hatályba" ++ r ++ lit ".") in *. set (whole := az ++ q ++ lit " " ++ w ++ u).
    destruct (list_begins known _ _ _ _ SL (lit " " ++ w ++ u)) as [BG PF]. pose proof (first_ws _ PF) as WQ.
    assert (NE : ~ begins_with (lit "a") (q ++ lit " " ++ w ++ u)).
    { intros (b & E). destruct q as [|x q]; [|cbn in E; injection E as -> _; apply NA; now exists q]. discriminate E. }
    destruct (amends_nothing known whole az _ I eq_refl (unnamed_plain _ U) WQ) as [W0 AM].
    destruct (f_when known (ed_date e) w u W) as (WW & _). destruct (after_when known (ed_date e) w u W) as [AF NS].
    destruct (y_ed_list known _ _ _ _ SL (utf8_len az) [] (lit " " ++ w ++ u) lead_none ltac:(change (utf8_len []) with 0; lia) AF NS) as (t & ts & o1 & u1 & Y1 & YM & _ & FD).
    destruct (y_when known (ed_date e) w (utf8_len az + utf8_len q) u W) as (a & o3 & t3 & gd & o2 & YA & CD & YD).
    destruct (y_then known (ed_repeal e) r (o2 + 1 + utf8_len (lit "lép hatályba")) R) as (gr & o4 & CR & YR).
    destruct (ed_fed_out rf _ _ _ FD ob_new [] eq_refl eq_refl) as (b & B1 & B2 & B3).
    exists (mkGEd None (t :: ts) gd gr), l. split; [|split; [|split; [exists b; auto|split; [reflexivity|]]]].
    2: { unfold convert_enforcement. cbn [ge_refs ge_date ge_repeal]. rewrite B2. cbn [obind fst snd is_empty]. rewrite CD. cbn [obind]. rewrite CR. cbn [obind]. rewrite B3. destruct e as [e1 e2 e3 e4 e5]. cbn in *. now subst. }
    2: { eapply Forall_impl; [|exact (list_within _ _ _ _ SL)]. cbn beta. intros x H. unfold whole. rewrite !utf8_len_app. lia. }
    assert (H : exists o', reads known whole g_root_rule 0 whole (REnforcement (mkGEd None (t :: ts) gd gr)) o' []).
    { eexists. unfold g_root_rule. do 4 (apply r_alt2; [apply x_bind1, x_sk; [exact W0|apply AM]|]). apply r_alt1.
      eapply r_bind; [apply r_sk; [exact W0|]|eapply r_bind; [apply r_y, (y_sk known eoi (o4 + 1) [] tt _ _ Logic.I); intros g' _; reflexivity|apply r_ret]].
      apply r_y. unfold enforcement_date. eapply y_bind; [exact (y_capital az _ I)|]. eapply y_bind; [apply y_none; exact (no_exception _ _ PF NE)|].
      eapply y_bind; [apply y_some; eapply y_bind; [exact Y1|]; eapply y_bind; [exact YM|apply y_ret]|].
      eapply y_bind; [exact YA|]. eapply y_bind; [exact YD|]. eapply y_bind; [apply (y_T_sp known "lép hatályba"); reflexivity|].
      eapply y_bind; [exact YR|]. eapply y_bind; [apply (y_T known "." _ []); reflexivity|apply y_ret]. }
    destruct H as (o' & H). destruct (H _ (fine_new known whole)) as (g' & E & _). unfold grammar_parse. now rewrite E.
  Qed.
  Lemma parts_read pre post e s info : top pre = [] -> top post = [] -> parts_enforced (ca_map c) e s info ->
    extract_semantic_info rf grammar_parse s (mkAdder pre post c) = (mkAdder pre post c, Ok info).
  Proof.
    intros P1 P2 H. destruct (parts_root e s info H) as (x & l & G & C & (b & B1 & B2) & EI & FA). destruct H as [az q l' w r I SL NA W R U E1 E2 E3]. injection EI as EI. subst l'.
    rewrite !app_assoc in *. apply (sentence_read rf pre post c _ 46 (REnforcement x)); [now left|exact P1|exact P2|exact G|..].
    - reflexivity.
    - cbn [get_outgoing_references]. rewrite B1. cbn [obind]. now rewrite B2.
    - exact FA.
    - cbn. now rewrite C.
  Qed.

  (** ** Exceptions *)
  Lemma y_dashes d o t : In d dashes -> quiet is_ascii_ws t -> (forall o, fails dash o t) -> exists a o', yields (opt (sk dash)) o (lit " " ++ d ++ t) a o' (lit " " ++ t) /\ o' = o + utf8_len d.
  Proof.
    intros I W F. unfold dashes in I. cbn [map In] in I. destruct I as [<-|I].
    - exists None, o. split; [apply y_none, f_sk_sp; [exact W|apply F]|]. change (utf8_len (lit "")) with 0. lia.
    - exists (Some tt), (o + utf8_len d). split; [|reflexivity].
      repeat (destruct I as [<-|I]; [apply y_some, y_sk_sp; [reflexivity|]; eapply y_eq; [eapply (y_chr known); vm_compute; reflexivity|vm_compute utf8_len; lia]|]). contradiction.
  Qed.
  Lemma after_junk k t : In k (map lit ["szerinti"; "foglalt"]%string) -> after_ref known (lit " " ++ k ++ t).
  Proof. intros I. cbn [map In] in I. repeat (destruct I as [<-|I]; [constructor; [reflexivity|reflexivity|failing..]|]). contradiction. Qed.
  Lemma y_junk k e e' o t : In k (map lit ["szerinti"; "foglalt"]%string) -> Forall small_letter e -> Forall small_letter e' -> quiet is_hun_lower t -> exists o', yields (sk exception_junk) o (lit " " ++ k ++ e ++ lit " kivétel" ++ e' ++ t) tt o' t /\ o' = o + 1 + utf8_len (k ++ e ++ lit " kivétel" ++ e').
  Proof.
    intros I E E' Q. pose proof (smalls e E) as HE. pose proof (smalls e' E') as HE'.
    destruct (y_many_chars known is_hun_lower e (o + 1 + utf8_len k) (lit " kivétel" ++ e' ++ t) HE eq_refl) as (l1 & Y1).
    destruct (y_many_chars known is_hun_lower e' (o + 1 + utf8_len k + utf8_len e + utf8_len (lit " kivétel")) t HE' Q) as (l2 & Y2).
    assert (YK : yields (one_of ["szerinti"; "foglalt"; "foglalt"]%string) (o + 1) (k ++ e ++ lit " kivétel" ++ e' ++ t) tt (o + 1 + utf8_len k) (e ++ lit " kivétel" ++ e' ++ t)).
    { clear - I. cbn [map In] in I. cbn [one_of]. destruct I as [<-|[<-|[]]]; [apply y_alt1, y_tok|]. apply y_alt2; [now apply f_tok|]. apply y_alt1, y_tok. }
    eexists. split; [|rewrite !utf8_len_app, !N.add_assoc; reflexivity]. apply y_sk_sp; [cbn [map In] in I; repeat (destruct I as [<-|I]; [reflexivity|]); contradiction|]. unfold exception_junk. eapply y_bind.
    - apply y_alt1, YK.
    - eapply y_bind; [exact Y1|]. unfold suffixed. eapply y_bind; [apply y_tok|]. eapply y_void. exact Y2.
  Qed.
  Lemma y_excepted x o t : exception_said x -> quiet is_ascii_ws t -> (forall o, fails dash o t) -> exists g o', yields excepted o (lit " " ++ x ++ t) g o' (lit " " ++ t) /\ o' = o + utf8_len x.
  Proof.
    intros [d r s k e e' d' D R RA S K E E' D'] W F. rewrite <- !app_assoc.
    destruct (y_dashes d o (lit "a " ++ s ++ lit " " ++ k ++ e ++ lit " kivétel" ++ e' ++ lit " " ++ d' ++ t) D eq_refl ltac:(intros; here)) as (a & o1 & Y1 & EO1).
    assert (NE : lower_parts r <> []) by (intros EE; rewrite EE in S; now apply ended_nil in S).
    pose proof (proj1 (ended_begins known _ _ (lit " " ++ k ++ e ++ lit " kivétel" ++ e' ++ lit " " ++ d' ++ t) 0 (parts_good r R) S)) as BG. apply begins_ws in BG.
    set (o2 := o1 + 1 + utf8_len (lit "a") + 1). destruct (y_reference_then known r s o2 _ R S (after_junk k (e ++ lit " kivétel" ++ e' ++ lit " " ++ d' ++ t) K)) as (g & Y2 & _).
    destruct (y_junk k e e' (o2 + utf8_len s) (lit " " ++ d' ++ t) K E E' eq_refl) as (o3 & Y3 & EO3).
    destruct (y_dashes d' o3 t D' W F) as (a' & o4 & Y4 & EO4).
    exists g, o4. split; [|subst o2 o3 o4 o1; rewrite !utf8_len_app in *; change (utf8_len (lit " ")) with 1 in *; change (utf8_len (lit "a ")) with 2 in *; change (utf8_len (lit "a")) with 1 in *; lia].
    unfold excepted. eapply y_bind; [exact Y1|].
    change (lit "a " ++ s ++ lit " " ++ k ++ e ++ lit " kivétel" ++ e' ++ lit " " ++ d' ++ t) with (lit "a" ++ lit " " ++ s ++ lit " " ++ k ++ e ++ lit " kivétel" ++ e' ++ lit " " ++ d' ++ t).
    eapply y_bind; [apply (y_T_sp known "a"); reflexivity|].
    eapply y_bind; [apply y_sk_sp; [exact BG|exact Y2]|]. eapply y_bind; [exact Y3|]. eapply y_bind; [exact Y4|apply y_ret].
  Qed.
  Lemma except_root e s : enforced_except e s -> exists x, grammar_parse s known = Ok (REnforcement x) /\ convert_enforcement rf x = Ok e /\ ge_refs x = [].
  Proof.
    intros [t v w r I X W R E1 E2 E3]. set (u := lit " lép hatályba" ++ r ++ lit "."). set (whole := t ++ v ++ w ++ u).
    destruct (not_amending c t (v ++ w ++ u) 0 I) as [W0 NA]. destruct (y_beginning c t (v ++ w ++ u) I) as (ob & YB & EB). destruct (f_when known (ed_date e) w u W) as (WW & _ & FR & FS & FB & FA).
    assert (FD : forall o, fails dash o (w ++ u)).
    { intros o. clear - W. destruct W as [d x D|p I|p n x I S|p n x I S|p m z n x I M S];
        [|rewrite <- !app_assoc; unfold publishing in I; cbn [map flat_map app In] in I; repeat (destruct I as [<-|I]; [now apply f_chr|]); contradiction..].
      destruct (date_form d x u D) as (ds & w & E & N & W). rewrite E. apply f_chr, numeral_quiet; [|exact N]. intros z H. apply ProofSay4.digit_cases in H. cbn [In] in H. repeat (destruct H as [<-|H]; [reflexivity|]). contradiction. }
    destruct (y_excepted v ob (w ++ u) X WW FD) as (ge & oe & YE & EE).
    destruct (y_when known (ed_date e) w oe u W) as (a & o1 & t1 & gd & o2 & YA & CD & YD).
    destruct (y_then known (ed_repeal e) r (o2 + 1 + utf8_len (lit "lép hatályba")) R) as (gr & o3 & CR & YR).
    exists (mkGEd (Some ge) [] gd gr). split; [|split; [|reflexivity]].
    2: { unfold convert_enforcement. cbn [ge_refs convert_ed_refs obind ge_date ge_repeal fst snd is_empty]. rewrite CD. cbn [obind]. rewrite CR. cbn [obind]. destruct e as [e1 e2 e3 e4 e5]. cbn in *. now subst. }
    assert (H : exists o', reads known whole g_root_rule 0 whole (REnforcement (mkGEd (Some ge) [] gd gr)) o' []).
    { eexists. unfold g_root_rule.
      do 4 (apply r_alt2; [apply x_bind1, x_sk; [exact W0|]; apply x_bind1, x_f, NA|]). apply r_alt1.
      eapply r_bind; [apply r_sk; [exact W0|]|eapply r_bind; [apply r_y, (y_sk known eoi (o3 + 1) [] tt _ _ Logic.I); intros g' _; reflexivity|apply r_ret]].
      unfold enforcement_date. eapply r_bind; [apply r_y; exact YB|]. eapply r_bind; [apply r_y, y_some; exact YE|].
      eapply r_bind; [apply r_none, x_bind1, x_sk_sp; [exact WW|]|].
      - assert (PL : place whole (oe + 1) (w ++ u)).
        { exists (t ++ v). split; [unfold whole; now rewrite <- app_assoc|]. rewrite utf8_len_app. lia. }
        assert (XX : refuses known whole enforcement_date_reference (oe + 1) (w ++ u)).
        { unfold enforcement_date_reference. repeat apply x_alt.
          + apply x_bind1, x_sk; [exact WW|]. apply x_f, FR.
          + apply x_bind1, x_sk; [exact WW|]. apply x_struct; [exact PL|apply FS].
          + apply x_bind1, x_sk; [exact WW|]. apply x_f, FB.
          + apply x_bind1, x_sk; [exact WW|]. apply x_f, FA. }
        exact XX.
      - eapply r_bind; [apply r_y; exact YA|]. eapply r_bind; [apply r_y; exact YD|]. eapply r_bind; [apply r_y, (y_T_sp known "lép hatályba"); reflexivity|].
        eapply r_bind; [apply r_y; exact YR|]. eapply r_bind; [apply r_y, (y_T known "." _ []); reflexivity|apply r_ret]. }
    destruct H as (o' & H). destruct (H _ (fine_new known whole)) as (g' & E & _). unfold grammar_parse. now rewrite E.
  Qed.
  Lemma except_read pre post e s : top pre = [] -> top post = [] -> enforced_except e s ->
    extract_semantic_info rf grammar_parse s (mkAdder pre post c) = (mkAdder pre post c, Ok (mkSi [] [] (Some (PhEnforcement e)))).
  Proof.
    intros P1 P2 H. destruct (except_root e s H) as (x & G & C & R). destruct H as [t v w r I X W Q E1 E2 E3].
    rewrite !app_assoc in *. apply (sentence_read rf pre post c _ 46 (REnforcement x)); [now left|exact P1|exact P2|exact G|..].
    - reflexivity.
    - cbn. now rewrite R.
    - constructor.
    - cbn. now rewrite C.
  Qed.
End Enforced.
