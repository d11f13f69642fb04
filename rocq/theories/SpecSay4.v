(** Specification for text amendments (C75): "Az X törvény 5. §-ában az „a” szövegrész helyébe a „b” szöveg lép." *)
From Verif Require Export SpecSay3.

Definition exchanging : list str := map lit [" helyébe "; " helyett "]%string.
Inductive exchange_said (x y : str) : str -> Prop :=
| exchange_of q e k z q' : quotation x q -> Forall small_letter e -> In k exchanging -> In z articles -> quotation y q' ->
    exchange_said x y (q ++ lit " szöveg" ++ e ++ k ++ z ++ q').
(** The second "szöveg" may be left out if another pair follows. *)
Inductive exchanges_said : str -> list (str * str) -> Prop :=
| exchanges_one x y s e : exchange_said x y s -> Forall small_letter e -> exchanges_said (s ++ lit " szöveg" ++ e) [(x, y)]
| exchanges_bare x y s sep rest l : exchange_said x y s -> In sep separators -> exchanges_said rest l ->
    exchanges_said (s ++ sep ++ rest) ((x, y) :: l)
| exchanges_more x y s e sep rest l : exchange_said x y s -> Forall small_letter e -> In sep separators -> exchanges_said rest l ->
    exchanges_said (s ++ lit " szöveg" ++ e ++ sep ++ rest) ((x, y) :: l).
Definition exchange_endings : list str := map lit [" lép."; " lép hatályba."; ", lép."; ", lép hatályba."]%string.
(** All pairs are exchanged in all parts listed. *)
Inductive text_exchange (m : list (str * act_id)) (a : act_id) : str -> sem_info -> Prop :=
| text_exchange_of az title name s l z q ps e : In az the -> In z articles -> act_named m a (lit " " ++ s ++ lit " " ++ z ++ q ++ e) title name ->
    said_list (only_act a) (utf8_len (az ++ title ++ name ++ lit " ")) s l -> exchanges_said q ps -> In e exchange_endings ->
    text_exchange m a (az ++ title ++ name ++ lit " " ++ s ++ lit " " ++ z ++ q ++ e)
      (mkSi (act_found (az ++ title) name a :: l) []
         (Some (PhText (flat_map (fun r => map (fun p => mkTa (TaSae (o_ref r) PartAll) (fst p) (snd p)) ps) l)))).
