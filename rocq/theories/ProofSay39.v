(** Proofs for C81: sentences which introduce abbreviations, as a whole. *)
From Verif Require Export ProofSay38.
From Verif Require ProofGrammar ProofGrammar2 ProofSem ProofSem3 ProofSem5.
From Coq Require Import Lia.
Local Open Scope peg_scope.
Local Open Scope N_scope.

Section Whole.
  Variables (rf : str -> option Z) (c : cache).
  Hypothesis roman : roman_from_reads rf.
  Hypothesis named : all_named (ca_map c).
  Local Notation known := (all_abbreviations c).
  Section Root.
    Variable txt : str.
    Hypothesis plain : everyday txt.
    Local Notation ginv := (ProofGrammar.ginv txt (SpecGrammar.known_word txt known) known (exists s, SpecGrammar.introduces txt s) (SpecGrammar.struct_words txt)).
    Lemma all_fit g : ginv g -> fits txt (ca_map c) [] (gl_known g).
    Proof.
      intros ((F & _ & I) & _). split; [rewrite app_nil_r; exact I|]. eapply Forall_impl; [|exact F]. intros k [_ K]. exact K.
    Qed.
    Lemma no_repeal L o : quiet is_ascii_ws txt -> fails L (sk g_repeal_rule) o txt.
    Proof.
      intros W. apply f_sk; [exact W|]. apply f_bind1. cbn [one_of_sk]. apply f_alt; [apply f_T; [exact W|]|apply f_alt; [apply f_T; [exact W|]|apply f_alt; [apply f_T; [exact W|]|intros g _; reflexivity]]].
      - destruct (strip_prefix (lit "Nem lép hatályba") txt) as [b|] eqn:E; [|reflexivity]. exfalso. apply strip_prefix_some in E. apply (ey_force _ plain). exists (lit "Nem "), b. rewrite E. reflexivity.
      - destruct (strip_prefix (lit "Hatályát veszti") txt) as [b|] eqn:E; [|reflexivity]. exfalso. apply strip_prefix_some in E. apply (ey_repeal _ plain). exists (lit "ti" ++ b). rewrite E. reflexivity.
      - destruct (strip_prefix (lit "Hatályát veszíti") txt) as [b|] eqn:E; [|reflexivity]. exfalso. apply strip_prefix_some in E. apply (ey_repeal _ plain). exists (lit "íti" ++ b). rewrite E. reflexivity.
    Qed.
    Lemma speech_root l n : txt <> [] -> speech (ca_map c) txt n 0 [] txt l n -> exists gs, grammar_parse txt known = Ok (RList gs) /\ told rf (cache_add_multiple n c) gs l n.
    Proof.
      intros NE PR. assert (FI : forall k, map_get k (ca_map (cache_add_multiple n c)) = value_after (ca_map c) n k) by (intros k; apply ProofSem.add_multiple_get).
      assert (IN : within txt txt) by now exists [].
      pose proof (speech_quiet rf txt (ca_map c) n _ roman FI _ _ _ _ _ PR IN) as W. pose proof (told_all rf txt (ca_map c) n _ roman named FI _ _ _ _ _ PR IN 0 [] lead_none eq_refl) as TA.
      unfold grammar_parse, g_root_rule.
      assert (G0 : ginv (mkGlob known [] [])).
      { split; [split; [|split; [now left|apply incl_refl]]|split; constructor]. cbn [gl_known]. apply Forall_forall. intros k J. split; [|now left]. intros ->. apply in_map_iff in J as ((k' & b') & E & J). cbn in E. subst k'. exact (named b' J). }
      assert (NC : forall u k v w, In k ProofGrammar2.amending -> txt = u ++ k ++ v ++ lit ":" ++ w -> spaces v -> spaces w -> False).
      { assert (K : forall k, In k ProofGrammar2.amending -> exists a k', In k' amending_ends /\ k = a ++ k').
        { intros k J. unfold ProofGrammar2.amending in J. cbn [map In] in J. unfold amending_ends. cbn [map In].
          repeat (destruct J as [<-|J]; [first [now (exists (lit "rendelkezés "), (lit "lép"); split; [tauto|reflexivity])|now (exists (lit "rendelkezések "), (lit "lépnek"); split; [tauto|reflexivity])
            |now (exists (lit "szöveggel "), (lit "lép hatályba"); split; [tauto|reflexivity])|now (exists (lit "szerint "), (lit "módosul"); split; [tauto|reflexivity])
            |now (exists (lit "kiegészülve "), (lit "lép hatályba"); split; [tauto|reflexivity])|now (eexists [], _; split; [|reflexivity]; tauto)]|]). contradiction. }
        intros u k v w0 J E V W'. destruct (K k J) as (a & k' & J' & ->). apply (ey_amendment _ plain (u ++ a) k' v w0 J'); [|exact V|exact W']. rewrite E, <- !app_assoc. reflexivity. }
      assert (ALT : forall (p q : parser g_root) g, (forall k, ProofGrammar.good txt (SpecGrammar.known_word txt known) known (exists s, SpecGrammar.introduces txt s) (SpecGrammar.struct_words txt) k p (fun _ _ _ => False)) -> ginv g ->
        exists g', ginv g' /\ (p <|> q) (mkCur 0 txt) g = q (mkCur 0 txt) g').
      { intros p q g H G. destruct (ProofGrammar2.refused txt known p H g G) as (g' & E & G'). exists g'. split; [exact G'|]. unfold alt. now rewrite E. }
      destruct (ALT _ ((x <- sk block_amendment_with_subtitle ;; sk eoi ;; ret (RBlockSubtitle x)) <|> (x <- sk block_amendment_structural ;; sk eoi ;; ret (RBlockStruct x))
        <|> (x <- sk g_text_amendment_rule ;; sk eoi ;; ret (RText x)) <|> (x <- sk enforcement_date ;; sk eoi ;; ret (REnforcement x))
        <|> (x <- sk g_repeal_rule ;; sk eoi ;; ret (RRepeal x)) <|> (x <- sk list_of_simple_expressions ;; sk eoi ;; ret (RList x))) _
        (ProofGrammar2.z_end txt known block_amendment RBlock (ProofGrammar2.z_block txt known) NC) G0) as (g1 & G1 & ->).
      destruct (ALT _ ((x <- sk block_amendment_structural ;; sk eoi ;; ret (RBlockStruct x))
        <|> (x <- sk g_text_amendment_rule ;; sk eoi ;; ret (RText x)) <|> (x <- sk enforcement_date ;; sk eoi ;; ret (REnforcement x))
        <|> (x <- sk g_repeal_rule ;; sk eoi ;; ret (RRepeal x)) <|> (x <- sk list_of_simple_expressions ;; sk eoi ;; ret (RList x))) _
        (ProofGrammar2.z_end txt known block_amendment_with_subtitle RBlockSubtitle (ProofGrammar2.z_block_sub txt known) NC) G1) as (g2 & G2 & ->).
      destruct (ALT _ ((x <- sk g_text_amendment_rule ;; sk eoi ;; ret (RText x)) <|> (x <- sk enforcement_date ;; sk eoi ;; ret (REnforcement x))
        <|> (x <- sk g_repeal_rule ;; sk eoi ;; ret (RRepeal x)) <|> (x <- sk list_of_simple_expressions ;; sk eoi ;; ret (RList x))) _
        (ProofGrammar2.z_end txt known block_amendment_structural RBlockStruct (ProofGrammar2.z_block_struct txt known) NC) G2) as (g3 & G3 & ->).
      assert (NT : ~ (ProofGrammar2.occurs txt (lit "„") /\ ProofGrammar2.occurs txt (lit "szöveg"))).
      { intros [A B]. apply (ey_text _ plain). split; now apply ProofGrammar2.occurs_in. }
      destruct (ALT _ ((x <- sk enforcement_date ;; sk eoi ;; ret (REnforcement x)) <|> (x <- sk g_repeal_rule ;; sk eoi ;; ret (RRepeal x)) <|> (x <- sk list_of_simple_expressions ;; sk eoi ;; ret (RList x))) _
        (ProofGrammar2.z_met txt known g_text_amendment_rule RText _ (ProofGrammar2.z_text txt known) NT) G3) as (g4 & G4 & ->).
      assert (NF : ~ ProofGrammar2.occurs txt (lit "lép hatályba")) by (intros A; apply (ey_force _ plain); now apply ProofGrammar2.occurs_in).
      destruct (ALT _ ((x <- sk g_repeal_rule ;; sk eoi ;; ret (RRepeal x)) <|> (x <- sk list_of_simple_expressions ;; sk eoi ;; ret (RList x))) _
        (ProofGrammar2.z_met txt known enforcement_date REnforcement _ (ProofGrammar2.z_enforcement txt known) NF) G4) as (g5 & G5 & ->).
      destruct (TA (gl_known g5) (all_fit g5 G5)) as (gs & o' & w & L' & LW & TK & _ & YM). specialize (YM NE). cbn [app] in YM. exists gs. split; [|exact TK].
      assert (Y : exists o2 L2, shifts (gl_known g5) ((x <- sk g_repeal_rule ;; sk eoi ;; ret (RRepeal x)) <|> (x <- sk list_of_simple_expressions ;; sk eoi ;; ret (RList x))) 0 txt (RList gs) o2 [] L2).
      { assert (Y1 : shifts (gl_known g5) (sk list_of_simple_expressions) 0 txt gs o' w L') by now apply s_sk.
        destruct LW as [->| ->]; eexists _, _; (eapply s_alt2; [apply s_f, f_bind1; now apply no_repeal|]); (eapply s_bind; [exact Y1|]); (eapply s_bind; [apply s_y|apply s_y, y_ret]).
        - apply y_sk; [exact I|]. intros g _. reflexivity.
        - exact (y_sk_sp _ eoi o' [] tt _ _ Logic.I (fun g _ => eq_refl)). }
      destruct Y as (o2 & L2 & Y). destruct (Y g5 eq_refl) as (g6 & E6 & _). rewrite E6. reflexivity.
    Qed.
  End Root.
  Lemma transpose_ok {A} (l : list A) : transpose (map (fun p => Ok p) l) = Ok l.
  Proof. induction l as [|x l IH]; [reflexivity|]. cbn [map transpose obind]. now rewrite IH. Qed.
  Lemma map_with_is l s : map_with l s -> map_of l = s.
  Proof.
    intros [I G]. apply ProofSem.map_ext; [apply ProofSem.map_of_is_map|exact I|]. intros k. rewrite G, ProofSem.map_of_get. clear. induction l as [|[k' a] l IH]; [reflexivity|].
    cbn [rev last_write]. assert (K : forall (u v : list (str * act_id)), map_get k (u ++ v) = match map_get k u with Some x => Some x | None => map_get k v end).
    { intros u v. induction u as [|[j x] u IHu]; [reflexivity|]. cbn [app map_get]. destruct (str_eqb k j); [reflexivity|exact IHu]. }
    rewrite K, IH. destruct (last_write k l); [reflexivity|]. reflexivity.
  Qed.
  Lemma spoken_understood t i n : spoken_task (ca_map c) t i n -> understood rf grammar_parse c t i (cache_add_multiple n c).
  Proof.
    intros [text l own news ab S NE O P K MW]. destruct (speech_root text O l news NE P) as (gs & G & [(ls & R & <-) N]). rewrite <- (map_with_is _ _ MW).
    replace (@None phrase) with (phrase_kept (t_intro t) None) by now destruct (t_intro t).
    apply (understood_ rf grammar_parse c t text (RList gs) news (List.concat ls) own None S G); [|cbn|exact K|reflexivity].
    - unfold get_new_abbreviations. cbn [root_act_refs]. rewrite N. apply transpose_ok.
    - rewrite R. reflexivity.
  Qed.
End Whole.
