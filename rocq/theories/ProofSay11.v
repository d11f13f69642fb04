(** Proofs for C73: sentences of enforcement. *)
From Verif Require Export ProofSay10.
From Coq Require Import Lia.
Local Open Scope peg_scope.
Local Open Scope N_scope.

Lemma month_cases m : 1 <= m <= 12 -> In m [1; 2; 3; 4; 5; 6; 7; 8; 9; 10; 11; 12].
Proof. intros H. cbn. lia. Qed.
Ltac split_in I := repeat (destruct I as [<-|I]; [|]); [..|contradiction].

Section Run.
  Variable known : list str.
  Local Notation yields := (yields known).
  Local Notation fails := (fails known).

  (** ** Dates *)
  Lemma month_other m t : 1 <= m <= 12 -> other (month_name m ++ t).
  Proof. intros H. apply month_cases in H. cbn [In] in H. repeat (destruct H as [<-|H]; [constructor; vm_compute; reflexivity|]). contradiction. Qed.
  Lemma y_month m o t : 1 <= m <= 12 -> yields g_month o (month_name m ++ t) (month_name m) (o + utf8_len (month_name m)) t.
  Proof. intros H. apply month_cases in H. eapply y_sliced. cbn [In] in H. repeat (destruct H as [<-|H]; [here|]). contradiction. Qed.
  Lemma day_bound y m d : valid_date y m d -> d <= 31.
  Proof.
    intros V. pose proof (valid_date_month _ _ _ V) as Hm. destruct V as (k & Hk & V). apply month_len_spec in Hk; [|exact Hm]. subst k.
    transitivity (days_in_month y m); [lia|]. unfold days_in_month. repeat match goal with |- context [if ?b then _ else _] => destruct b end; lia.
  Qed.
  Lemma y_date d s o t : on_day d s -> exists g, convert_date g = Ok d /\ yields g_date_rule o (s ++ t) g (o + utf8_len s) t.
  Proof.
    intros [y dd e L V P Y D E]. apply numeral_of in Y as [NY VY]. apply numeral_of in D as [ND VD]. pose proof (valid_date_month _ _ _ V) as Hm.
    exists (mkGDate y (month_name (d_month d)) dd). split.
    - unfold convert_date. cbn [gd_year gd_month gd_day]. rewrite parse_i32_digits; [|apply NY|apply NY|rewrite VY; unfold i32_max; lia]. cbn [obind].
      rewrite (proj2 (month_spec _ (d_month d))) by auto. cbn [obind]. unfold parse_u32. rewrite parse_unsigned_digits; [|apply ND|apply ND]. rewrite VD.
      pose proof (day_bound _ _ _ V) as B. rewrite (proj2 (N.leb_le _ _)) by lia. cbn [obind]. rewrite VY, Z2N.id by exact P.
      rewrite (proj2 (from_ymd_spec (d_year d) (d_month d) (d_day d) (mkDate (d_year d) (d_month d) (d_day d)))); [now destruct d|]. split; [reflexivity|]. split; [exact V|lia].
    - unfold g_date_rule. rewrite <- !app_assoc. eapply y_bind; [apply y_sk_digits; [exact NY|reflexivity]|].
      change (lit ". ") with (lit "." ++ lit " "). rewrite <- !app_assoc. eapply y_bind; [apply y_T; reflexivity|].
      eapply y_bind; [apply y_sk_sp; [apply (ow_ws _ (month_other (d_month d) _ Hm))|apply y_month, Hm]|].
      cbn [map In] in E. assert (Q : quiet is_digit (e ++ t)) by (repeat (destruct E as [<-|E]; [reflexivity|]); contradiction).
      eapply y_bind; [apply y_sk_sp; [now apply numeral_ws|now apply y_digits]|].
      assert (YE : yields (one_of_sk ["-án"; "-jén"; "-én"; ". napján"]%string) (o + utf8_len y + utf8_len (lit ".") + 1 + utf8_len (month_name (d_month d)) + 1 + utf8_len dd) (e ++ t) tt
        (o + utf8_len y + utf8_len (lit ".") + 1 + utf8_len (month_name (d_month d)) + 1 + utf8_len dd + utf8_len e) t).
      { generalize (o + utf8_len y + utf8_len (lit ".") + 1 + utf8_len (month_name (d_month d)) + 1 + utf8_len dd). intros o1. cbn [one_of_sk]. repeat (destruct E as [<-|E]; [repeat (apply y_alt2; [now apply f_T|]); apply y_alt1; now apply y_T|]). contradiction. }
      eapply y_bind; [exact YE|]. eapply y_eq; [apply y_ret|]. rewrite !utf8_len_app. change (utf8_len (lit " ")) with 1. lia.
  Qed.
  Lemma date_form d s t : on_day d s -> exists ds w, s ++ t = ds ++ lit "." ++ lit " " ++ w /\ numeral ds /\ other w.
  Proof.
    intros [y dd e L V P Y D E]. apply numeral_of in Y as [NY VY]. pose proof (valid_date_month _ _ _ V) as Hm.
    exists y, (month_name (d_month d) ++ lit " " ++ dd ++ e ++ t). split; [|split; [exact NY|now apply month_other]]. rewrite <- !app_assoc. reflexivity.
  Qed.

  (** ** Ordinals *)
  Lemma y_word n w o t : in_words n w -> num_from_hungarian w = Ok n /\ quiet is_ascii_ws (w ++ t) /\ quiet is_digit (w ++ t) /\ yields hungarian_ordinal o (w ++ lit " " ++ t) w (o + utf8_len w) (lit " " ++ t).
  Proof.
    unfold in_words. intros I. unfold ordinals, ordinal_values in I. cbn [map combine In] in I.
    repeat (destruct I as [I|I]; [injection I as <- <-; split; [vm_compute; reflexivity|]; split; [reflexivity|]; split; [reflexivity|]; eapply y_sliced; here|]). contradiction.
  Qed.
  Lemma f_word_digits o t : digit_first t -> fails (sk hungarian_ordinal) o t.
  Proof. intros D. apply f_sk; [now apply digit_first_ws|]. apply f_sliced, f_one_digit; [vm_compute; reflexivity|exact D]. Qed.
  Lemma y_ordinal n s o t : ordinal_said n s -> quiet is_ascii_ws (s ++ t) /\ exists g, convert_ordinal g = Ok n /\ yields g_ordinal_rule o (lit " " ++ s ++ lit " " ++ t) g (o + 1 + utf8_len s) (lit " " ++ t).
  Proof.
    intros [w I|ds D L].
    - destruct (y_word n w (o + 1) t I) as (C & W & _ & Y). split; [exact W|]. exists (GWord w). split; [exact C|]. apply y_alt1. eapply y_bind; [apply y_sk_sp; [|exact Y]|apply y_ret].
      destruct (y_word n w o (lit " " ++ t) I) as (_ & W' & _). exact W'.
    - apply numeral_of in D as [ND VD]. rewrite <- !app_assoc. split; [now apply numeral_ws|]. exists (GNumber ds). split.
      + cbn [convert_ordinal]. apply parse_u16_digits; [apply ND|]. split; [apply ND|]. auto.
      + apply y_alt2.
        * apply f_bind1. change (lit " " ++ ds ++ lit "." ++ lit " " ++ t) with (lit " " ++ (ds ++ lit "." ++ lit " " ++ t)). apply f_sk_sp; [now apply numeral_ws|].
          apply f_sliced, f_one_digit; [vm_compute; reflexivity|now apply numeral_first].
        * eapply y_bind; [apply y_sk_sp; [now apply numeral_ws|]|apply y_ret]. eapply y_bind; [apply y_sk_digits; [exact ND|reflexivity]|]. eapply y_bind; [apply y_T; reflexivity|].
          eapply y_eq; [apply y_ret|]. rewrite utf8_len_app. lia.
  Qed.

  (** ** Publication *)
  (** [p] has been read up to its last space. *)
  Lemma y_pub p o t : In p publishing -> exists a o1 l t1, yields (opt (sk g_az)) o (lit " " ++ p ++ t) a o1 (l ++ t1) /\ lead l /\ quiet is_ascii_ws t1 /\ quiet is_digit t1 /\
    forall o', exists o2, yields publication o' t1 tt o2 (lit " " ++ t).
  Proof.
    intros I. unfold publishing in I. cbn [map flat_map app In] in I.
    pose (o1 := end_of_run (opt (sk g_az) (mkCur o (lit " " ++ p ++ t)) (mkGlob [] [] []))).
    destruct I as [<-|[<-|[<-|[<-|[<-|[<-|[<-|[<-|[]]]]]]]]].
    - exists (Some tt), o1, [], (lit "kihirdetését követő " ++ t). split; [here|]. split; [apply lead_none|]. split; [reflexivity|]. split; [reflexivity|intros; computed].
    - exists (Some tt), o1, [], (lit "kihirdetést követő " ++ t). split; [here|]. split; [apply lead_none|]. split; [reflexivity|]. split; [reflexivity|intros; computed].
    - exists None, o, (lit " "), (lit "e törvény kihirdetését követő " ++ t). split; [here|]. split; [apply lead_space|]. split; [reflexivity|]. split; [reflexivity|intros; computed].
    - exists None, o, (lit " "), (lit "e törvény kihirdetést követő " ++ t). split; [here|]. split; [apply lead_space|]. split; [reflexivity|]. split; [reflexivity|intros; computed].
    - exists (Some tt), o1, [], (lit "e törvény kihirdetését követő " ++ t). split; [here|]. split; [apply lead_none|]. split; [reflexivity|]. split; [reflexivity|intros; computed].
    - exists (Some tt), o1, [], (lit "e törvény kihirdetést követő " ++ t). split; [here|]. split; [apply lead_none|]. split; [reflexivity|]. split; [reflexivity|intros; computed].
    - exists None, o, (lit " "), (lit "kihirdetését követő " ++ t). split; [here|]. split; [apply lead_space|]. split; [reflexivity|]. split; [reflexivity|intros; computed].
    - exists None, o, (lit " "), (lit "kihirdetést követő " ++ t). split; [here|]. split; [apply lead_space|]. split; [reflexivity|]. split; [reflexivity|intros; computed].
  Qed.
  (** Not an exception, nor a reference *)
  Definition excepted : parser g_ref := opt (sk dash) ;; T "a" ;; r <- sk g_reference ;; sk exception_junk ;; opt (sk dash) ;; ret r.
  Lemma f_pub p t : In p publishing -> quiet is_ascii_ws (p ++ t) /\ (forall o, fails excepted o (lit " " ++ p ++ t)) /\ (forall o, fails g_reference o (p ++ t)) /\ (forall o, fails struct_inner o (p ++ t)) /\
    (forall o, fails subtitles_reference o (p ++ t)) /\ (forall o, fails attachment_reference o (p ++ t)).
  Proof.
    intros I. unfold publishing in I. cbn [map flat_map app In] in I.
    repeat (destruct I as [<-|I]; [split; [reflexivity|]; repeat (split; [intros o; here|]); intros o; here|]). contradiction.
  Qed.
  (** ** When *)
  Definition when_rule : parser g_ed_date := (d <- sk g_date_rule ;; ret (GDate d)) <|> sk after_publication <|> sk day_in_month.
  Lemma f_date_pub l o t : lead l -> quiet is_ascii_ws t -> quiet is_digit t -> fails (d <- sk g_date_rule ;; ret (GDate d)) o (l ++ t).
  Proof. intros L W D. apply f_bind1. apply f_sk_lead; [exact L|exact W|]. intros o1. apply f_bind1, f_sk; [exact W|]. now apply f_number. Qed.
  Lemma y_when e s o t : coming_into_force e s -> exists a o1 t1 g o2, yields (opt (sk g_az)) o (lit " " ++ s ++ t) a o1 t1 /\ convert_ed_date g = Ok e /\ yields when_rule o1 t1 g o2 t.
  Proof.
    intros [d x D|p I|p n x I S|p n x I S|p m w n x I M S].
    - destruct (y_date d x (o + 1) t D) as (g & C & Y). destruct (date_form d x t D) as (ds & w & E & N & W).
      exists None, o, (lit " " ++ x ++ t), (GDate g). eexists. split; [|split; [cbn; now rewrite C|]].
      + apply y_none. rewrite E. apply f_sk_sp; [now apply numeral_ws|]. apply f_bind1, f_tok_head; [discriminate|]. apply numeral_quiet; [|exact N]. intros c H. apply ProofSay4.digit_cases in H. cbn [In] in H. repeat (destruct H as [<-|H]; [reflexivity|]). contradiction.
      + apply y_alt1. eapply y_bind; [apply y_sk_sp; [rewrite E; now apply numeral_ws|exact Y]|apply y_ret].
    - rewrite <- !app_assoc. destruct (y_pub p o (lit "napon" ++ t) I) as (a & o1 & l & t1 & Y & L & W & D & YP0). destruct (YP0 (o1 + utf8_len l)) as [o2 YP]. exists a, o1, (l ++ t1), (GAfterPublication None). eexists. split; [exact Y|]. split; [reflexivity|].
      apply y_alt2; [now apply f_date_pub|]. apply y_alt1, y_sk_lead; [exact L|exact W|]. eapply y_bind; [exact YP|]. eapply y_bind; [apply y_none; here|]. eapply y_bind; [apply y_T_sp; reflexivity|apply y_ret].
    - rewrite <- !app_assoc. destruct (y_pub p o (x ++ lit " napon" ++ t) I) as (a & o1 & l & t1 & Y & L & W & D & YP0). destruct (YP0 (o1 + utf8_len l)) as [o2 YP]. destruct (y_ordinal n x o2 (lit "napon" ++ t) S) as (_ & g & C & YO).
      exists a, o1, (l ++ t1), (GAfterPublication (Some g)). eexists. split; [exact Y|]. split; [cbn; now rewrite C|].
      apply y_alt2; [now apply f_date_pub|]. apply y_alt1, y_sk_lead; [exact L|exact W|]. eapply y_bind; [exact YP|]. eapply y_bind; [apply y_some; exact YO|]. eapply y_bind; [apply y_T_sp; reflexivity|apply y_ret].
    - rewrite <- !app_assoc. destruct (y_pub p o (lit "hónap " ++ x ++ lit " napján" ++ t) I) as (a & o1 & l & t1 & Y & L & W & D & YP0). destruct (YP0 (o1 + utf8_len l)) as [o2 YP].
      destruct (y_ordinal n x (o2 + 1 + utf8_len (lit "hónap")) (lit "napján" ++ t) S) as (_ & g & C & YO).
      exists a, o1, (l ++ t1), (GDayInMonth None g). eexists. split; [exact Y|]. split; [cbn; now rewrite C|].
      apply y_alt2; [now apply f_date_pub|]. apply y_alt2.
      + apply f_sk_lead; [exact L|exact W|]. intros o3. destruct (YP0 o3) as [o4 YP4]. eapply f_bind2; [exact YP4|]. eapply f_bind2; [apply y_none; here|]. apply f_bind1. here.
      + apply y_sk_lead; [exact L|exact W|]. eapply y_bind; [exact YP|]. eapply y_bind; [apply y_none; here|]. eapply y_bind; [apply (y_T_sp known "hónap"); reflexivity|].
        eapply y_bind; [exact YO|]. eapply y_bind; [apply y_T_sp; reflexivity|apply y_ret].
    - rewrite <- !app_assoc. destruct (y_pub p o (w ++ lit " hónap " ++ x ++ lit " napján" ++ t) I) as (a & o1 & l & t1 & Y & L & W & D & YP0). destruct (YP0 (o1 + utf8_len l)) as [o2 YP].
      set (u := x ++ lit " napján" ++ t) in *. destruct (y_word m w (o2 + 1) (lit "hónap " ++ u) M) as (CM & WM & _ & YM).
      destruct (y_ordinal n x (o2 + 1 + utf8_len w + 1 + utf8_len (lit "hónap")) (lit "napján" ++ t) S) as (_ & g & C & YO).
      exists a, o1, (l ++ t1), (GDayInMonth (Some w) g). eexists. split; [exact Y|]. split; [cbn; rewrite CM; cbn; now rewrite C|].
      apply y_alt2; [now apply f_date_pub|]. apply y_alt2.
      + apply f_sk_lead; [exact L|exact W|]. intros o3. destruct (YP0 o3) as [o4 YP4]. eapply f_bind2; [exact YP4|].
        destruct (y_ordinal m w o4 (lit "hónap " ++ u) (ordinal_word m w M)) as (_ & g' & _ & YO'). eapply f_bind2; [apply y_some; exact YO'|]. apply f_bind1. here.
      + apply y_sk_lead; [exact L|exact W|]. eapply y_bind; [exact YP|].
        assert (WM' : quiet is_ascii_ws (w ++ lit " " ++ lit "hónap " ++ u)) by (destruct (y_word m w 0 (lit " " ++ lit "hónap " ++ u) M) as (_ & Q & _); exact Q).
        eapply y_bind; [apply y_some, y_sk_sp; [exact WM'|exact YM]|]. eapply y_bind; [apply (y_T_sp known "hónap"); reflexivity|].
        eapply y_bind; [exact YO|]. eapply y_bind; [apply y_T_sp; reflexivity|apply y_ret].
  Qed.
  Lemma f_when e s t : coming_into_force e s -> quiet is_ascii_ws (s ++ t) /\ (forall o, fails excepted o (lit " " ++ s ++ t)) /\ (forall o, fails g_reference o (s ++ t)) /\ (forall o, fails struct_inner o (s ++ t)) /\
    (forall o, fails subtitles_reference o (s ++ t)) /\ (forall o, fails attachment_reference o (s ++ t)).
  Proof.
    intros [d x D|p I|p n x I S|p n x I S|p m w n x I M S]; [|rewrite <- !app_assoc; now apply f_pub..].
    destruct (date_form d x t D) as (ds & w & E & N & W). rewrite E. split; [now apply numeral_ws|]. split; [|repeat split; intros; [now apply f_reference_date|now apply f_struct_date|now apply f_subtitles_date|now apply f_attachment_date]].
    intros o. eapply f_bind2; [apply y_none, f_sk_sp; [now apply numeral_ws|]; apply f_chr, numeral_quiet; [|exact N]|].
    - intros c H. apply ProofSay4.digit_cases in H. cbn [In] in H. repeat (destruct H as [<-|H]; [reflexivity|]). contradiction.
    - apply f_bind1, (f_T_lead known "a" 97 [] (lit " ") o _ lead_space); [now apply numeral_ws|reflexivity|]. apply numeral_quiet; [|exact N]. intros c H. apply ProofSay4.digit_cases in H. cbn [In] in H. repeat (destruct H as [<-|H]; [reflexivity|]). contradiction.
  Qed.
  (** ** Repeal in the same sentence *)
  Lemma y_then r x o : then_repealed r x -> exists g o2, opt_ok convert_date g = Ok r /\ yields (opt (sk inline_repeal)) o (x ++ lit ".") g o2 (lit ".").
  Proof.
    intros [|d p s I D].
    - exists None, o. split; [reflexivity|]. apply y_none. here.
    - rewrite <- !app_assoc. destruct (date_form d s (lit " hatályát veszti" ++ lit ".") D) as (ds & w & E & N & W).
      assert (NE : forall o, fails (one_of_sk ["ez a"; "e"]%string) o (lit " " ++ s ++ lit " hatályát veszti" ++ lit ".")).
      { intros o1. rewrite E. cbn [one_of_sk]. repeat apply f_alt; [eapply f_T_lead; [apply lead_space|now apply numeral_ws|reflexivity|]..|intros ? ?; reflexivity];
          (apply numeral_quiet; [|exact N]; intros c H; apply ProofSay4.digit_cases in H; cbn [In] in H; repeat (destruct H as [<-|H]; [reflexivity|]); contradiction). }
      set (u := s ++ lit " hatályát veszti" ++ lit ".") in *.
      assert (TAIL : forall o1, exists g o2, convert_date g = Ok d /\ yields (d <- sk g_date_rule ;; opt (T "a") ;; T "hatályát veszti" ;; ret d) o1 (lit " " ++ u) g o2 (lit ".")).
      { intros o1. destruct (y_date d s (o1 + 1) (lit " hatályát veszti" ++ lit ".") D) as (g & C & Y). exists g. eexists. split; [exact C|].
        eapply y_bind; [apply y_sk_sp; [rewrite E; now apply numeral_ws|exact Y]|]. eapply y_bind; [apply y_none; here|]. eapply y_bind; [apply (y_T_sp known "hatályát veszti" _ (lit ".")); reflexivity|apply y_ret]. }
      pose (mid := opt (one_of_sk ["ez a"; "e"]%string ;; T "törvény")).
      assert (MID : forall o1 m, In m (map lit [""; " ez a törvény"; " e törvény"]%string) -> exists v o2, yields mid o1 (m ++ lit " " ++ u) v o2 (lit " " ++ u)).
      { intros o1 m J. cbn [map In] in J. destruct J as [<-|[<-|[<-|[]]]].
        - exists None, o1. apply y_none, f_bind1, NE.
        - exists (Some tt). clearbody u. computed.
        - exists (Some tt). clearbody u. computed. }
      assert (P : exists c m, p = c ++ lit " és" ++ m ++ lit " " /\ In c (map lit [""; ","]%string) /\ In m (map lit [""; " ez a törvény"; " e törvény"]%string)).
      { clear - I. unfold and_it in I. cbn [map flat_map app In] in I.
        destruct I as [<-|[<-|[<-|[<-|[<-|[<-|[]]]]]]];
          [exists [], []|exists [], (lit " ez a törvény")|exists [], (lit " e törvény")|exists (lit ","), []|exists (lit ","), (lit " ez a törvény")|exists (lit ","), (lit " e törvény")];
          (split; [vm_compute; reflexivity|cbn [map In]; auto]). }
      destruct P as (c & m & -> & IC & IM). cbn [map In] in IC. rewrite <- !app_assoc. destruct IC as [<-|[<-|[]]].
      + destruct (MID (o + 1 + utf8_len (lit "és")) m IM) as (v & o2 & YM). destruct (TAIL o2) as (g & o3 & C & YT). exists (Some g), o3. split; [cbn; now rewrite C|]. apply y_some.
        change (lit "" ++ lit " és" ++ m ++ lit " " ++ u) with (lit " " ++ lit "és" ++ m ++ lit " " ++ u). apply y_sk_sp; [reflexivity|].
        eapply y_bind; [apply y_none, f_T; reflexivity|]. eapply y_bind; [apply y_T; reflexivity|]. eapply y_bind; [exact YM|exact YT].
      + destruct (MID (o + utf8_len (lit ",") + 1 + utf8_len (lit "és")) m IM) as (v & o2 & YM). destruct (TAIL o2) as (g & o3 & C & YT). exists (Some g), o3. split; [cbn; now rewrite C|]. apply y_some.
        apply y_sk; [reflexivity|]. eapply y_bind; [apply y_some, y_T; reflexivity|]. eapply y_bind; [apply (y_T_sp known "és"); reflexivity|]. eapply y_bind; [exact YM|exact YT].
  Qed.
End Run.

Section Enforced.
  Variables (rf : str -> option Z) (c : cache).
  Local Notation known := (all_abbreviations c).
  Local Notation yields := (yields known).
  Local Notation fails := (fails known).
  Definition beginning : parser unit := (one_of_sk ["Ez a"; "E"]%string ;; T "törvény") <|> sk g_az_upper.
  Lemma y_beginning t u : In t this_act -> exists o', yields beginning 0 (t ++ u) tt o' (lit " " ++ u) /\ o' + 1 = utf8_len t.
  Proof.
    intros I. unfold this_act in I. cbn [map In] in I.
    destruct I as [<-|[<-|[]]]; [exists (utf8_len (lit "Ez a törvény"))|exists (utf8_len (lit "E törvény"))]; (split; [here|vm_compute; reflexivity]).
  Qed.
  Lemma not_amending t u o : In t this_act -> quiet is_ascii_ws (t ++ u) /\ fails (sk g_az_any) o (t ++ u).
  Proof. intros I. unfold this_act in I. cbn [map In] in I. destruct I as [<-|[<-|[]]]; (split; [reflexivity|here]). Qed.
  Lemma enforced_root e s : enforced e s -> exists x, grammar_parse s known = Ok (REnforcement x) /\ convert_enforcement rf x = Ok e /\ ge_refs x = [].
  Proof.
    intros [t w r I W R E1 E2 E3]. set (u := lit " lép hatályba" ++ r ++ lit "."). set (whole := t ++ w ++ u).
    destruct (not_amending t (w ++ u) 0 I) as [W0 NA]. destruct (y_beginning t (w ++ u) I) as (ob & YB & EB). destruct (f_when known (ed_date e) w u W) as (WW & FE & FR & FS & FB & FA).
    destruct (y_when known (ed_date e) w ob u W) as (a & o1 & t1 & gd & o2 & YA & CD & YD).
    destruct (y_then known (ed_repeal e) r (o2 + 1 + utf8_len (lit "lép hatályba")) R) as (gr & o3 & CR & YR).
    exists (mkGEd None [] gd gr). split; [|split; [|reflexivity]].
    2: { unfold convert_enforcement. cbn [ge_refs convert_ed_refs obind ge_date ge_repeal fst snd is_empty]. rewrite CD. cbn [obind]. rewrite CR. cbn [obind]. destruct e as [e1 e2 e3 e4 e5]. cbn in *. now subst. }
    assert (H : exists o', reads known whole g_root_rule 0 whole (REnforcement (mkGEd None [] gd gr)) o' []).
    { eexists. unfold g_root_rule.
      do 4 (apply r_alt2; [apply x_bind1, x_sk; [exact W0|]; apply x_bind1, x_f, NA|]). apply r_alt1.
      eapply r_bind; [apply r_sk; [exact W0|]|eapply r_bind; [apply r_y, (y_sk known eoi (o3 + 1) [] tt _ _ Logic.I); intros g' _; reflexivity|apply r_ret]].
      unfold enforcement_date. eapply r_bind; [apply r_y; exact YB|]. eapply r_bind; [apply r_none, x_f, FE|].
      eapply r_bind; [apply r_none, x_bind1, x_sk_sp; [exact WW|]|].
      - assert (PL : place whole (ob + 1) (w ++ u)).
        { exists t. split; [reflexivity|exact EB]. }
        unfold enforcement_date_reference. repeat apply x_alt.
        + apply x_bind1, x_sk; [exact WW|]. apply x_f, FR.
        + apply x_bind1, x_sk; [exact WW|]. apply x_struct; [exact PL|apply FS].
        + apply x_bind1, x_sk; [exact WW|]. apply x_f, FB.
        + apply x_bind1, x_sk; [exact WW|]. apply x_f, FA.
      - eapply r_bind; [apply r_y; exact YA|]. eapply r_bind; [apply r_y; exact YD|]. eapply r_bind; [apply r_y, (y_T_sp known "lép hatályba"); reflexivity|].
        eapply r_bind; [apply r_y; exact YR|]. eapply r_bind; [apply r_y, (y_T known "." _ []); reflexivity|apply r_ret]. }
    destruct H as (o' & H). destruct (H _ (fine_new known whole)) as (g' & E & _). unfold grammar_parse. now rewrite E.
  Qed.
  Lemma enforced_read pre post e s : top pre = [] -> top post = [] -> enforced e s ->
    extract_semantic_info rf grammar_parse s (mkAdder pre post c) = (mkAdder pre post c, Ok (mkSi [] [] (Some (PhEnforcement e)))).
  Proof.
    intros P1 P2 H. destruct (enforced_root e s H) as (x & G & C & R). destruct H as [t w r I W Q E1 E2 E3].
    rewrite !app_assoc in *. apply (sentence_read rf pre post c _ 46 (REnforcement x)); [now left|exact P1|exact P2|exact G|..].
    - reflexivity.
    - cbn. now rewrite R.
    - constructor.
    - cbn. now rewrite C.
  Qed.
End Enforced.
