(** Conformance of the structure parser model: the repository's own data tests
    (tests/datatests/data_structure_parser/*.txt with the expected *.yml), run on the model. *)
From Verif Require Import ModelStruct SpecIdent.
Local Open Scope N_scope.

(** A roman numeral reader and an upper case test, standing for the external functions. *)
Definition test_rf (s : str) : option Z :=
  if is_empty s || negb (forallb is_roman_digit s) then None else Some (roman_read s).
Definition test_up (c : char) : bool :=
  is_upper_az c || existsb (N.eqb c) (lit "ÁÉÍÓÖŐÚÜŰ").
(** tests/test_utils.rs:101-137 parse_txt_as_act, clean_quoted_blocks *)
Definition clean_block (q : quoted_block) : quoted_block := mkQb (qb_intro q) [] (qb_wrap q).
Definition clean_paragraph (p : paragraph) : paragraph :=
  match s_body p with
  | BChildren i (PcQuoted qs) w => ModelStruct.set_body p (BChildren i (PcQuoted (map clean_block qs)) w)
  | _ => p
  end.
Definition clean_child (c : act_child) : act_child :=
  match c with
  | ChArticle a => ChArticle (mkArticle (ar_ident a) (ar_title a) (map clean_paragraph (ar_children a)) (ar_change a))
  | _ => c
  end.
Definition test_act (lines : list str) : outcome act :=
  let* a := parse_act_structure test_rf test_up
    (mkRaw (mkAct 2345 13) (lit "A tesztelésről") (mkDate 2345 6 7) (map from_test_str lines)) in
  Ok (mkActS (ac_id a) (ac_subject a) (ac_preamble a) (ac_date a) (ac_abbrevs a) (map clean_child (ac_children a))).
Example struct_ambigous_points : test_act (map lit
  ["1. §  (1) Don't forget";
   "            1. There can be numeric points.";
   "            2. with subpoints like";
   "                a) subpoint 1,";
   "                b) subpoint 2.";
   "            3. So there's that.";
   "      (2) Oh by the way";
   "            a) It can be";
   "                1. The other way around too";
   "                2. just so you know.";
   "            b) Man, this sucks.";
   "      (3) By the way 2, if there is only one point reference like";
   "          a) we still should not parse it as points,";
   "          because it's wrong.";
   "      (4) This is especially true if there is a fake numeric point like";
   "          1. but then there are";
   "          a) one real subpoint";
   "          b) two real subpoints";
   "          Then it should be alphabetic subpoints.";
   "          Even without indentation.";
   "      (5) This is especially true if there is a fake numeric point like";
   "          1. but then there are";
   "          a) one real subpoint";
   "          b) two real subpoints";
   "          However, if there is";
   "          2. another point, then we can do nothing but have";
   "          numeric subpoints. Such is life.";
   ""]%string)
  = Ok (mkActS (mkAct 2345 13) (lit "A tesztelésről") (lit "") (mkDate 2345 6 7) [] [(ChArticle (mkArticle (mkArt None (mkNum 1 None)) None [(mkSae (Some (mkNum 1 None)) (BChildren (lit "Don't forget") (PcNum [(mkSae (mkNum 1 None) (BText (lit "There can be numeric points.")) si_default None); (mkSae (mkNum 2 None) (BChildren (lit "with subpoints like") (NcAlpha [(mkSae (mkPre None (Latin 97)) (BText (lit "subpoint 1,")) si_default None); (mkSae (mkPre None (Latin 98)) (BText (lit "subpoint 2.")) si_default None)]) None) si_default None); (mkSae (mkNum 3 None) (BText (lit "So there's that.")) si_default None)]) None) si_default None); (mkSae (Some (mkNum 2 None)) (BChildren (lit "Oh by the way") (PcAlpha [(mkSae (Latin 97) (BChildren (lit "It can be") (AcNum [(mkSae (mkNum 1 None) (BText (lit "The other way around too")) si_default None); (mkSae (mkNum 2 None) (BText (lit "just so you know.")) si_default None)]) None) si_default None); (mkSae (Latin 98) (BText (lit "Man, this sucks.")) si_default None)]) None) si_default None); (mkSae (Some (mkNum 3 None)) (BText (lit "By the way 2, if there is only one point reference like a) we still should not parse it as points, because it's wrong.")) si_default None); (mkSae (Some (mkNum 4 None)) (BChildren (lit "This is especially true if there is a fake numeric point like 1. but then there are") (PcAlpha [(mkSae (Latin 97) (BText (lit "one real subpoint")) si_default None); (mkSae (Latin 98) (BText (lit "two real subpoints")) si_default None)]) (Some (lit "Then it should be alphabetic subpoints. Even without indentation."))) si_default None); (mkSae (Some (mkNum 5 None)) (BChildren (lit "This is especially true if there is a fake numeric point like") (PcNum [(mkSae (mkNum 1 None) (BChildren (lit "but then there are") (NcAlpha [(mkSae (mkPre None (Latin 97)) (BText (lit "one real subpoint")) si_default None); (mkSae (mkPre None (Latin 98)) (BText (lit "two real subpoints")) si_default None)]) (Some (lit "However, if there is"))) si_default None); (mkSae (mkNum 2 None) (BText (lit "another point, then we can do nothing but have")) si_default None)]) (Some (lit "numeric subpoints. Such is life."))) si_default None)] None))]).
Proof. vm_compute. reflexivity. Qed.
Example struct_articles_evil : test_act (map lit
  ["";
   "     1. § (1) This is here to cause a misparse when the string";
   "              2. § is parsed.";
   "          (2) Also, multiple paragraphs, and paragraph misparsing if";
   "              (3) we just do this.";
   "";
   "     2. §     Hello. The next line is not a paragraph:";
   "              (1) I'm here to confuse the parser.";
   ""]%string)
  = Ok (mkActS (mkAct 2345 13) (lit "A tesztelésről") (lit "") (mkDate 2345 6 7) [] [(ChArticle (mkArticle (mkArt None (mkNum 1 None)) None [(mkSae (Some (mkNum 1 None)) (BText (lit "This is here to cause a misparse when the string 2. § is parsed.")) si_default None); (mkSae (Some (mkNum 2 None)) (BText (lit "Also, multiple paragraphs, and paragraph misparsing if (3) we just do this.")) si_default None)] None)); (ChArticle (mkArticle (mkArt None (mkNum 2 None)) None [(mkSae None (BText (lit "Hello. The next line is not a paragraph: (1) I'm here to confuse the parser.")) si_default None)] None))]).
Proof. vm_compute. reflexivity. Qed.
Example struct_articles_evil_noindent : test_act (map lit
  ["";
   "1. § (1) This is here to cause a misparse when the string";
   "4. § is parsed.";
   "(2) Also, multiple paragraphs, and paragraph misparsing if";
   "(2) we just do this.";
   "2. §     Hello. The next line is not a paragraph:";
   "(1) I'm here to confuse the parser.";
   ""]%string)
  = Ok (mkActS (mkAct 2345 13) (lit "A tesztelésről") (lit "") (mkDate 2345 6 7) [] [(ChArticle (mkArticle (mkArt None (mkNum 1 None)) None [(mkSae (Some (mkNum 1 None)) (BText (lit "This is here to cause a misparse when the string 4. § is parsed.")) si_default None); (mkSae (Some (mkNum 2 None)) (BText (lit "Also, multiple paragraphs, and paragraph misparsing if (2) we just do this.")) si_default None)] None)); (ChArticle (mkArticle (mkArt None (mkNum 2 None)) None [(mkSae None (BText (lit "Hello. The next line is not a paragraph: (1) I'm here to confuse the parser.")) si_default None)] None))]).
Proof. vm_compute. reflexivity. Qed.
Example struct_articles_with_title : test_act (map lit
  ["    1:1. § [A törvény hatálya]";
   "          E törvény a mellérendeltség és egyenjogúság elve szerint szabályozza a személyek alapvető vagyoni és személyi";
   "          viszonyait.";
   "";
   "    1:2. § [Értelmezési";
   "            alapelv]";
   "";
   "       (1) E törvény rendelkezéseit Magyarország alkotmányos rendjével összhangban kell értelmezni.";
   "       (2) A polgári jogi viszonyokra vonatkozó jogszabályokat e törvénnyel összhangban kell értelmezni.";
   ""]%string)
  = Ok (mkActS (mkAct 2345 13) (lit "A tesztelésről") (lit "") (mkDate 2345 6 7) [] [(ChArticle (mkArticle (mkArt (Some 1) (mkNum 1 None)) (Some (lit "A törvény hatálya")) [(mkSae None (BText (lit "E törvény a mellérendeltség és egyenjogúság elve szerint szabályozza a személyek alapvető vagyoni és személyi viszonyait.")) si_default None)] None)); (ChArticle (mkArticle (mkArt (Some 1) (mkNum 2 None)) (Some (lit "Értelmezési alapelv")) [(mkSae (Some (mkNum 1 None)) (BText (lit "E törvény rendelkezéseit Magyarország alkotmányos rendjével összhangban kell értelmezni.")) si_default None); (mkSae (Some (mkNum 2 None)) (BText (lit "A polgári jogi viszonyokra vonatkozó jogszabályokat e törvénnyel összhangban kell értelmezni.")) si_default None)] None))]).
Proof. vm_compute. reflexivity. Qed.
Example struct_btk_mod_1 : test_act (map lit
  ["1. § (1) A jogtalan támadást úgy kell tekinteni, mintha az a védekező életének kioltására is irányult volna, ha";
   "     a) azt személy ellen";
   "         aa) éjjel,";
   "         ab) fegyveresen,";
   "         ac) felfegyverkezve vagy";
   "         ad) csoportosan";
   "     követik el,";
   "     b) az a lakásba";
   "         ba) éjjel,";
   "         bb) fegyveresen,";
   "         bc) felfegyverkezve vagy";
   "         bd) csoportosan";
   "     történő jogtalan behatolás, vagy";
   "     c) az a lakáshoz tartozó bekerített helyre fegyveresen történő jogtalan behatolás.";
   ""]%string)
  = Ok (mkActS (mkAct 2345 13) (lit "A tesztelésről") (lit "") (mkDate 2345 6 7) [] [(ChArticle (mkArticle (mkArt None (mkNum 1 None)) None [(mkSae None (BChildren (lit "(1) A jogtalan támadást úgy kell tekinteni, mintha az a védekező életének kioltására is irányult volna, ha") (PcAlpha [(mkSae (Latin 97) (BChildren (lit "azt személy ellen") (AcAlpha [(mkSae (mkPre (Some (Latin 97)) (Latin 97)) (BText (lit "éjjel,")) si_default None); (mkSae (mkPre (Some (Latin 97)) (Latin 98)) (BText (lit "fegyveresen,")) si_default None); (mkSae (mkPre (Some (Latin 97)) (Latin 99)) (BText (lit "felfegyverkezve vagy")) si_default None); (mkSae (mkPre (Some (Latin 97)) (Latin 100)) (BText (lit "csoportosan")) si_default None)]) (Some (lit "követik el,"))) si_default None); (mkSae (Latin 98) (BChildren (lit "az a lakásba") (AcAlpha [(mkSae (mkPre (Some (Latin 98)) (Latin 97)) (BText (lit "éjjel,")) si_default None); (mkSae (mkPre (Some (Latin 98)) (Latin 98)) (BText (lit "fegyveresen,")) si_default None); (mkSae (mkPre (Some (Latin 98)) (Latin 99)) (BText (lit "felfegyverkezve vagy")) si_default None); (mkSae (mkPre (Some (Latin 98)) (Latin 100)) (BText (lit "csoportosan")) si_default None)]) (Some (lit "történő jogtalan behatolás, vagy"))) si_default None); (mkSae (Latin 99) (BText (lit "az a lakáshoz tartozó bekerített helyre fegyveresen történő jogtalan behatolás.")) si_default None)]) None) si_default None)] None))]).
Proof. vm_compute. reflexivity. Qed.
Example struct_dashes : test_act (map lit
  ["Ebben a torvenyben sok a kotojeles-";
   "szoveg, ahol figyelni kell a space-ekre";
   "";
   "                      I. CÍM";
   "                      A KOTOJELES UNDI-";
   "                      SZERKEZETEK";
   "";
   "1. § [Értelmezési-";
   "     alapelv]";
   "     Ebben a torvenyben mas sok a kotojeles-szoveg, a";
   "     sortores, illetve a legrosszabb, a kotojeles-";
   "     sortores, ami viszont egy szo space nelkul.";
   "";
   "2. § Meg a felsorolasoknal is kulonosen-";
   "     fontos, hogy";
   "     a) ne legyen";
   "     b) elrontva";
   "     a kotojeles-";
   "     forma.";
   ""]%string)
  = Ok (mkActS (mkAct 2345 13) (lit "A tesztelésről") (lit "Ebben a torvenyben sok a kotojeles-szoveg, ahol figyelni kell a space-ekre") (mkDate 2345 6 7) [] [(ChStruct (mkSe (mkNum 1 None) (lit "A KOTOJELES UNDI-SZERKEZETEK") TTitle None)); (ChArticle (mkArticle (mkArt None (mkNum 1 None)) (Some (lit "Értelmezési-alapelv")) [(mkSae None (BText (lit "Ebben a torvenyben mas sok a kotojeles-szoveg, a sortores, illetve a legrosszabb, a kotojeles-sortores, ami viszont egy szo space nelkul.")) si_default None)] None)); (ChArticle (mkArticle (mkArt None (mkNum 2 None)) None [(mkSae None (BChildren (lit "Meg a felsorolasoknal is kulonosen-fontos, hogy") (PcAlpha [(mkSae (Latin 97) (BText (lit "ne legyen")) si_default None); (mkSae (Latin 98) (BText (lit "elrontva")) si_default None)]) (Some (lit "a kotojeles-forma."))) si_default None)] None))]).
Proof. vm_compute. reflexivity. Qed.
Example struct_multiline_articles : test_act (map lit
  ["";
   "            1. §  Egy sorban levo szakasz.";
   "            2. §  Ket sorban";
   "                  levo szakasz.";
   "";
   "            3. §  Sortores a szakasz elott.";
   "";
   "            4. §  Sortores a";
   "";
   "                  szakasz kozben.";
   "            5. §  Vege.";
   ""]%string)
  = Ok (mkActS (mkAct 2345 13) (lit "A tesztelésről") (lit "") (mkDate 2345 6 7) [] [(ChArticle (mkArticle (mkArt None (mkNum 1 None)) None [(mkSae None (BText (lit "Egy sorban levo szakasz.")) si_default None)] None)); (ChArticle (mkArticle (mkArt None (mkNum 2 None)) None [(mkSae None (BText (lit "Ket sorban levo szakasz.")) si_default None)] None)); (ChArticle (mkArticle (mkArt None (mkNum 3 None)) None [(mkSae None (BText (lit "Sortores a szakasz elott.")) si_default None)] None)); (ChArticle (mkArticle (mkArt None (mkNum 4 None)) None [(mkSae None (BText (lit "Sortores a szakasz kozben.")) si_default None)] None)); (ChArticle (mkArticle (mkArt None (mkNum 5 None)) None [(mkSae None (BText (lit "Vege.")) si_default None)] None))]).
Proof. vm_compute. reflexivity. Qed.
Example struct_numeric_subpoints : test_act (map lit
  ["        1. § E törvény alkalmazásában:";
   "               1. egyéni vállalkozó: az Szja tv. szerint egyéni vállalkozónak minősülő természetes személy (az egyéni";
   "                   vállalkozóról és az egyéni cégről szóló törvény szerinti egyéni vállalkozói nyilvántartásban szereplő";
   "                   természetes személy akkor is, ha a nyilvántartásban rögzített tevékenysége ingatlan-bérbeadás vagy egyéb";
   "                   szálláshely-szolgáltatás), valamint a gyógyszerészeti magántevékenységet, falugondnoki tevékenységet,";
   "                   tanyagondnoki tevékenységet végző természetes személy, a szociális szolgáltató tevékenység folytatásához";
   "                   szükséges engedéllyel rendelkező természetes személy;";
   "               2. fogvatartott: akinek őrizetét rendelték el; az a személy, aki olyan bűnügyi felügyelet alatt áll, amelynek során";
   "                   a bíróság előírta számára, hogy lakást, egyéb helyiséget, intézményt, vagy ahhoz tartozó bekerített helyet";
   "                   engedély nélkül nem hagyhat el; a letartóztatott; az elzárást, a szabadságvesztést töltő személy; valamint";
   "                   a kényszergyógykezelés vagy előzetes kényszergyógykezelés alatt álló személy;";
   "               3. harmadik állam: a Tbj.-ben ilyenként meghatározott állam;";
   "               4. az iskolaszövetkezet és a nappali rendszerű oktatás keretében tanulmányokat folytató tanuló, hallgató tagja";
   "                   között fennálló ilyen jogviszony tekintetében tanulmányokat folytató tanuló, hallgató: az a személy, aki";
   "                   a) nappali rendszerű oktatás keretében a nemzeti köznevelésről szóló törvény szerinti tanulói";
   "                          jogviszonnyal rendelkezik,";
   "                   b) nappali rendszerű oktatás keretében a nemzeti felsőoktatásról szóló törvény szerinti nem szünetelő";
   "                          (aktív) hallgatói jogviszonnyal rendelkezik, vagy";
   "                   c) az a) vagy b) pont szerinti jogviszonya megszűnését követően diákigazolványra jogosult,";
   "                          a diákigazolványra való jogosultsága lejártáig;";
   "               5. kiegészítő tevékenységet folytató egyéni, társas vállalkozó: aki vállalkozói tevékenységet saját jogú";
   "                   nyugdíjasként folytat, továbbá az az özvegyi nyugdíjban részesülő személy, aki a reá irányadó öregségi";
   "                   nyugdíjkorhatárt betöltötte.";
   "               6. kifizető: Art. szerinti kifizető";
   "               7. külföldi kifizető: a belföldön állandó lakóhellyel, szokásos tartózkodási hellyel, székhellyel nem rendelkező";
   "                   személy;";
   "               8. mezőgazdasági őstermelő: az Szja tv. szerint mezőgazdasági őstermelőnek minősülő természetes személy;";
   "               9. mezőgazdasági kistermelő: az Szja tv. szerint mezőgazdasági kistermelőnek minősülő természetes személy;";
   "";
   "              10. minimálbér: az év első napján érvényes kötelező legkisebb munkabér havi összege, kivéve az e törvény";
   "                   egyéni és társas vállalkozókra vonatkozó rendelkezéseiben említett minimálbért, amely a tárgyhónap";
   "                   első napján, a teljes munkaidőre érvényes garantált bérminimum havi összege, ha az egyéni vállalkozó";
   "                   személyesen végzett főtevékenysége vagy a társas vállalkozó főtevékenysége legalább középfokú iskolai";
   "                   végzettséget vagy középfokú szakképzettséget igényel, ennek hiányában az előzőek szerint meghatározott";
   "                   minimálbér;";
   "              11. munkaviszony:";
   "                   a) az Mt-ben meghatározott munkaviszony,";
   "                   b) a közalkalmazotti jogviszony,";
   "                   c) a közszolgálati jogviszony, az állami szolgálati jogviszony, a kormányzati szolgálati viszony,";
   "                   d) a bírósági jogviszony,";
   "                   e) az igazságügyi alkalmazotti szolgálati viszony,";
   "                   f) az ügyészségi szolgálati jogviszony,";
   "                   g) a nevelőszülői foglalkoztatási jogviszony,";
   "                   h) az ösztöndíjas foglalkoztatási jogviszony,";
   "                   i) a közfoglalkoztatási jogviszony,";
   "                   j) a Magyar Honvédség, a rendvédelmi szervek, az Országgyűlési Őrség, a polgári nemzetbiztonsági";
   "                          szolgálatok, a Nemzeti Adó- és Vámhivatal hivatásos állományú tagjának e jogviszonya,";
   "                   k) a Magyar Honvédség szerződéses állományú tagjának e jogviszonya,";
   "                   l) a katonai szolgálatot teljesítő önkéntes tartalékos katona e jogviszonya,";
   "                   m) a nemzeti felsőoktatásról szóló törvényben meghatározott hallgatói munkaszerződés alapján";
   "                          létrejött munkaviszony,";
   "                   n) a Független Rendészeti Panasztestület tagjának e jogviszonya,";
   "                   o) az a)–n) alpont szerinti jogviszonynak megfelelő, külföldi jog alapján fennálló jogviszony, amely";
   "                          alapján a munkát Magyarország vagy a szociális biztonsági rendszerek koordinálásáról szóló";
   "                          közösségi rendelet hatálya alá tartozó másik tagállam területén végzik,";
   "                   p) a rendvédelmi feladatokat ellátó szerv által a rendvédelmi egészségkárosodási járadék";
   "                          folyósításának időtartama, valamint a honvédségi szervezet vagy a Katonai Nemzetbiztonsági";
   "                          Szolgálat által megállapított honvédelmi egészségkárosodási járadék folyósításának időtartama;";
   "              12. nevelőszülői foglalkoztatási jogviszony: a gyermekek védelméről és a gyámügyi igazgatásról szóló 1997. évi";
   "                   XXXI. törvény szerinti nevelőszülői foglalkoztatási jogviszony, amely teljes munkaidős foglalkoztatási";
   "                   jogviszonynak minősül;";
   "              13. saját jogú nyugdíjas: a társadalombiztosítás ellátásaira és a magánnyugdíjra jogosultakról, valamint";
   "                   e szolgáltatások fedezetéről szóló törvény szerint saját jogú nyugdíjasnak minősülő természetes személy;";
   "              14. társas vállalkozás: a közkereseti társaság, a betéti társaság, a korlátolt felelősségű társaság, a közös vállalat,";
   "                   az egyesülés, az európai gazdasági egyesülés, a szabadalmi ügyvivői iroda, a szabadalmi ügyvivői társaság,";
   "                   az ügyvédi iroda, a közjegyzői iroda, a végrehajtói iroda, az egyéni cég.";
   ""]%string)
  = Ok (mkActS (mkAct 2345 13) (lit "A tesztelésről") (lit "") (mkDate 2345 6 7) [] [(ChArticle (mkArticle (mkArt None (mkNum 1 None)) None [(mkSae None (BChildren (lit "E törvény alkalmazásában:") (PcNum [(mkSae (mkNum 1 None) (BText (lit "egyéni vállalkozó: az Szja tv. szerint egyéni vállalkozónak minősülő természetes személy (az egyéni vállalkozóról és az egyéni cégről szóló törvény szerinti egyéni vállalkozói nyilvántartásban szereplő természetes személy akkor is, ha a nyilvántartásban rögzített tevékenysége ingatlan-bérbeadás vagy egyéb szálláshely-szolgáltatás), valamint a gyógyszerészeti magántevékenységet, falugondnoki tevékenységet, tanyagondnoki tevékenységet végző természetes személy, a szociális szolgáltató tevékenység folytatásához szükséges engedéllyel rendelkező természetes személy;")) si_default None); (mkSae (mkNum 2 None) (BText (lit "fogvatartott: akinek őrizetét rendelték el; az a személy, aki olyan bűnügyi felügyelet alatt áll, amelynek során a bíróság előírta számára, hogy lakást, egyéb helyiséget, intézményt, vagy ahhoz tartozó bekerített helyet engedély nélkül nem hagyhat el; a letartóztatott; az elzárást, a szabadságvesztést töltő személy; valamint a kényszergyógykezelés vagy előzetes kényszergyógykezelés alatt álló személy;")) si_default None); (mkSae (mkNum 3 None) (BText (lit "harmadik állam: a Tbj.-ben ilyenként meghatározott állam;")) si_default None); (mkSae (mkNum 4 None) (BChildren (lit "az iskolaszövetkezet és a nappali rendszerű oktatás keretében tanulmányokat folytató tanuló, hallgató tagja között fennálló ilyen jogviszony tekintetében tanulmányokat folytató tanuló, hallgató: az a személy, aki") (NcAlpha [(mkSae (mkPre None (Latin 97)) (BText (lit "nappali rendszerű oktatás keretében a nemzeti köznevelésről szóló törvény szerinti tanulói jogviszonnyal rendelkezik,")) si_default None); (mkSae (mkPre None (Latin 98)) (BText (lit "nappali rendszerű oktatás keretében a nemzeti felsőoktatásról szóló törvény szerinti nem szünetelő (aktív) hallgatói jogviszonnyal rendelkezik, vagy")) si_default None); (mkSae (mkPre None (Latin 99)) (BText (lit "az a) vagy b) pont szerinti jogviszonya megszűnését követően diákigazolványra jogosult, a diákigazolványra való jogosultsága lejártáig;")) si_default None)]) None) si_default None); (mkSae (mkNum 5 None) (BText (lit "kiegészítő tevékenységet folytató egyéni, társas vállalkozó: aki vállalkozói tevékenységet saját jogú nyugdíjasként folytat, továbbá az az özvegyi nyugdíjban részesülő személy, aki a reá irányadó öregségi nyugdíjkorhatárt betöltötte.")) si_default None); (mkSae (mkNum 6 None) (BText (lit "kifizető: Art. szerinti kifizető")) si_default None); (mkSae (mkNum 7 None) (BText (lit "külföldi kifizető: a belföldön állandó lakóhellyel, szokásos tartózkodási hellyel, székhellyel nem rendelkező személy;")) si_default None); (mkSae (mkNum 8 None) (BText (lit "mezőgazdasági őstermelő: az Szja tv. szerint mezőgazdasági őstermelőnek minősülő természetes személy;")) si_default None); (mkSae (mkNum 9 None) (BText (lit "mezőgazdasági kistermelő: az Szja tv. szerint mezőgazdasági kistermelőnek minősülő természetes személy;")) si_default None); (mkSae (mkNum 10 None) (BText (lit "minimálbér: az év első napján érvényes kötelező legkisebb munkabér havi összege, kivéve az e törvény egyéni és társas vállalkozókra vonatkozó rendelkezéseiben említett minimálbért, amely a tárgyhónap első napján, a teljes munkaidőre érvényes garantált bérminimum havi összege, ha az egyéni vállalkozó személyesen végzett főtevékenysége vagy a társas vállalkozó főtevékenysége legalább középfokú iskolai végzettséget vagy középfokú szakképzettséget igényel, ennek hiányában az előzőek szerint meghatározott minimálbér;")) si_default None); (mkSae (mkNum 11 None) (BChildren (lit "munkaviszony:") (NcAlpha [(mkSae (mkPre None (Latin 97)) (BText (lit "az Mt-ben meghatározott munkaviszony,")) si_default None); (mkSae (mkPre None (Latin 98)) (BText (lit "a közalkalmazotti jogviszony,")) si_default None); (mkSae (mkPre None (Latin 99)) (BText (lit "a közszolgálati jogviszony, az állami szolgálati jogviszony, a kormányzati szolgálati viszony,")) si_default None); (mkSae (mkPre None (Latin 100)) (BText (lit "a bírósági jogviszony,")) si_default None); (mkSae (mkPre None (Latin 101)) (BText (lit "az igazságügyi alkalmazotti szolgálati viszony,")) si_default None); (mkSae (mkPre None (Latin 102)) (BText (lit "az ügyészségi szolgálati jogviszony,")) si_default None); (mkSae (mkPre None (Latin 103)) (BText (lit "a nevelőszülői foglalkoztatási jogviszony,")) si_default None); (mkSae (mkPre None (Latin 104)) (BText (lit "az ösztöndíjas foglalkoztatási jogviszony,")) si_default None); (mkSae (mkPre None (Latin 105)) (BText (lit "a közfoglalkoztatási jogviszony,")) si_default None); (mkSae (mkPre None (Latin 106)) (BText (lit "a Magyar Honvédség, a rendvédelmi szervek, az Országgyűlési Őrség, a polgári nemzetbiztonsági szolgálatok, a Nemzeti Adó- és Vámhivatal hivatásos állományú tagjának e jogviszonya,")) si_default None); (mkSae (mkPre None (Latin 107)) (BText (lit "a Magyar Honvédség szerződéses állományú tagjának e jogviszonya,")) si_default None); (mkSae (mkPre None (Latin 108)) (BText (lit "a katonai szolgálatot teljesítő önkéntes tartalékos katona e jogviszonya,")) si_default None); (mkSae (mkPre None (Latin 109)) (BText (lit "a nemzeti felsőoktatásról szóló törvényben meghatározott hallgatói munkaszerződés alapján létrejött munkaviszony,")) si_default None); (mkSae (mkPre None (Latin 110)) (BText (lit "a Független Rendészeti Panasztestület tagjának e jogviszonya,")) si_default None); (mkSae (mkPre None (Latin 111)) (BText (lit "az a)–n) alpont szerinti jogviszonynak megfelelő, külföldi jog alapján fennálló jogviszony, amely alapján a munkát Magyarország vagy a szociális biztonsági rendszerek koordinálásáról szóló közösségi rendelet hatálya alá tartozó másik tagállam területén végzik,")) si_default None); (mkSae (mkPre None (Latin 112)) (BText (lit "a rendvédelmi feladatokat ellátó szerv által a rendvédelmi egészségkárosodási járadék folyósításának időtartama, valamint a honvédségi szervezet vagy a Katonai Nemzetbiztonsági Szolgálat által megállapított honvédelmi egészségkárosodási járadék folyósításának időtartama;")) si_default None)]) None) si_default None); (mkSae (mkNum 12 None) (BText (lit "nevelőszülői foglalkoztatási jogviszony: a gyermekek védelméről és a gyámügyi igazgatásról szóló 1997. évi XXXI. törvény szerinti nevelőszülői foglalkoztatási jogviszony, amely teljes munkaidős foglalkoztatási jogviszonynak minősül;")) si_default None); (mkSae (mkNum 13 None) (BText (lit "saját jogú nyugdíjas: a társadalombiztosítás ellátásaira és a magánnyugdíjra jogosultakról, valamint e szolgáltatások fedezetéről szóló törvény szerint saját jogú nyugdíjasnak minősülő természetes személy;")) si_default None); (mkSae (mkNum 14 None) (BText (lit "társas vállalkozás: a közkereseti társaság, a betéti társaság, a korlátolt felelősségű társaság, a közös vállalat, az egyesülés, az európai gazdasági egyesülés, a szabadalmi ügyvivői iroda, a szabadalmi ügyvivői társaság, az ügyvédi iroda, a közjegyzői iroda, a végrehajtói iroda, az egyéni cég.")) si_default None)]) None) si_default None)] None))]).
Proof. vm_compute. reflexivity. Qed.
Example struct_parts : test_act (map lit
  ["Preamble preamble.";
   "";
   "              ÁLTALÁNOS RÉSZ";
   "";
   "              I. FEJEZET";
   "              ALAPVETŐ RENDELKEZÉSEK";
   "";
   "     <BOLD>   A törvényesség elve";
   "";
   "     1. §     Az elkövető büntetőjogi felelősségét csak olyan cselekmény miatt lehet megállapítani, amelyet – a nemzetközi jog";
   "              általánosan elismert szabályai alapján büntetendő cselekmények kivételével – törvény az elkövetés idején büntetni";
   "              rendelt.";
   "";
   "              KÜLÖNÖS RÉSZ";
   "";
   "              II. FEJEZET";
   "              AZ EMBERIESSÉG ELLENI BŰNCSELEKMÉNYEK";
   "";
   "     <BOLD>   Népirtás";
   "";
   "     2. §     Aki valamely nemzeti, etnikai, faji vagy vallási csoport teljes vagy részleges megsemmisítése céljából";
   "              a) a csoport tagjait megöli,";
   "              b) a csoport tagjainak súlyos testi vagy lelki sérelmet okoz,";
   "";
   "              ZÁRÓ RÉSZ";
   "";
   "     <BOLD>   Értelmező rendelkezések";
   "";
   "     3. §     E törvény alkalmazásában";
   ""]%string)
  = Ok (mkActS (mkAct 2345 13) (lit "A tesztelésről") (lit "Preamble preamble.") (mkDate 2345 6 7) [] [(ChStruct (mkSe (mkNum 1 None) (lit "") (TPart true) None)); (ChStruct (mkSe (mkNum 1 None) (lit "ALAPVETŐ RENDELKEZÉSEK") TChapter None)); (ChSubtitle (mkSub None (lit "A törvényesség elve") None)); (ChArticle (mkArticle (mkArt None (mkNum 1 None)) None [(mkSae None (BText (lit "Az elkövető büntetőjogi felelősségét csak olyan cselekmény miatt lehet megállapítani, amelyet – a nemzetközi jog általánosan elismert szabályai alapján büntetendő cselekmények kivételével – törvény az elkövetés idején büntetni rendelt.")) si_default None)] None)); (ChStruct (mkSe (mkNum 2 None) (lit "") (TPart true) None)); (ChStruct (mkSe (mkNum 2 None) (lit "AZ EMBERIESSÉG ELLENI BŰNCSELEKMÉNYEK") TChapter None)); (ChSubtitle (mkSub None (lit "Népirtás") None)); (ChArticle (mkArticle (mkArt None (mkNum 2 None)) None [(mkSae None (BChildren (lit "Aki valamely nemzeti, etnikai, faji vagy vallási csoport teljes vagy részleges megsemmisítése céljából") (PcAlpha [(mkSae (Latin 97) (BText (lit "a csoport tagjait megöli,")) si_default None); (mkSae (Latin 98) (BText (lit "a csoport tagjainak súlyos testi vagy lelki sérelmet okoz,")) si_default None)]) None) si_default None)] None)); (ChStruct (mkSe (mkNum 3 None) (lit "") (TPart true) None)); (ChSubtitle (mkSub None (lit "Értelmező rendelkezések") None)); (ChArticle (mkArticle (mkArt None (mkNum 3 None)) None [(mkSae None (BText (lit "E törvény alkalmazásában")) si_default None)] None))]).
Proof. vm_compute. reflexivity. Qed.
Example struct_points : test_act (map lit
  ["            1. § (1) A gyámhatóságnak";
   "                  a) 2014-ben az 1982. december 31. előtt,";
   "                  b) 2015-ben az 1983. január 1. és 1994. december 31. között,";
   "                  c) 2016-ban az 1995. január 1. és 2001. december 31. között,";
   "                  d) 2017-ben a 2002. január 1. és 2007. december 31. között,";
   "                  e) 2018-ban a 2008. január 1. és 2014. március 14. között";
   "                  elrendelt – cselekvőképességet kizáró gondnokság alá helyezésről szóló, felülvizsgálati kötelezettséget nem";
   "                  tartalmazó – határozatok felülvizsgálata iránt kell a bíróságon pert indítania.";
   "               (2) A Ptk. hatálybalépése előtt hozott, felülvizsgálati kötelezettséget tartalmazó határozatok esetében a felülvizsgálati";
   "                  eljárást a bírósági határozatban megjelölt időpontban, de legkésőbb a Ptk. hatálybalépésétől számított öt éven";
   "                  belül kell a gyámhatóságnak megindítania.";
   ""]%string)
  = Ok (mkActS (mkAct 2345 13) (lit "A tesztelésről") (lit "") (mkDate 2345 6 7) [] [(ChArticle (mkArticle (mkArt None (mkNum 1 None)) None [(mkSae (Some (mkNum 1 None)) (BChildren (lit "A gyámhatóságnak") (PcAlpha [(mkSae (Latin 97) (BText (lit "2014-ben az 1982. december 31. előtt,")) si_default None); (mkSae (Latin 98) (BText (lit "2015-ben az 1983. január 1. és 1994. december 31. között,")) si_default None); (mkSae (Latin 99) (BText (lit "2016-ban az 1995. január 1. és 2001. december 31. között,")) si_default None); (mkSae (Latin 100) (BText (lit "2017-ben a 2002. január 1. és 2007. december 31. között,")) si_default None); (mkSae (Latin 101) (BText (lit "2018-ban a 2008. január 1. és 2014. március 14. között")) si_default None)]) (Some (lit "elrendelt – cselekvőképességet kizáró gondnokság alá helyezésről szóló, felülvizsgálati kötelezettséget nem tartalmazó – határozatok felülvizsgálata iránt kell a bíróságon pert indítania."))) si_default None); (mkSae (Some (mkNum 2 None)) (BText (lit "A Ptk. hatálybalépése előtt hozott, felülvizsgálati kötelezettséget tartalmazó határozatok esetében a felülvizsgálati eljárást a bírósági határozatban megjelölt időpontban, de legkésőbb a Ptk. hatálybalépésétől számított öt éven belül kell a gyámhatóságnak megindítania.")) si_default None)] None))]).
Proof. vm_compute. reflexivity. Qed.
Example struct_points2 : test_act (map lit
  ["     1. § E törvény";
   "              a) 38. §-a az Alaptörvény 38. cikk (1) és (2) bekezdése,";
   "              b) 66. § (2) bekezdés a) pontja az Alaptörvény 38. cikk (1) bekezdése";
   "              alapján sarkalatosnak minősül.";
   "";
   "     2. § Ures sor, hogy hiba legyen";
   ""]%string)
  = Ok (mkActS (mkAct 2345 13) (lit "A tesztelésről") (lit "") (mkDate 2345 6 7) [] [(ChArticle (mkArticle (mkArt None (mkNum 1 None)) None [(mkSae None (BChildren (lit "E törvény") (PcAlpha [(mkSae (Latin 97) (BText (lit "38. §-a az Alaptörvény 38. cikk (1) és (2) bekezdése,")) si_default None); (mkSae (Latin 98) (BText (lit "66. § (2) bekezdés a) pontja az Alaptörvény 38. cikk (1) bekezdése")) si_default None)]) (Some (lit "alapján sarkalatosnak minősül."))) si_default None)] None)); (ChArticle (mkArticle (mkArt None (mkNum 2 None)) None [(mkSae None (BText (lit "Ures sor, hogy hiba legyen")) si_default None)] None))]).
Proof. vm_compute. reflexivity. Qed.
Example struct_points_right_aligned : test_act (map lit
  ["            1. § A szamozott pontok akkor is pontok, ha";
   "                 1. 1 pontbol,";
   "                 2. 2 pontbol,";
   "                 3. 3 pontbol,";
   "                 4. 4 pontbol,";
   "                 5. 5 pontbol,";
   "                 6. 6 pontbol,";
   "                 7. 7 pontbol,";
   "                 8. 8 pontbol,";
   "                 9. 9 pontbol, vagy";
   "                10. 10 pontbol,";
   "                allnak.";
   "            2. § Sot, akkor is, ha";
   "                 1. 1 pontbol,";
   "                 2. 2 pontbol,";
   "                 3. 3 pontbol,";
   "                 4. 4 pontbol,";
   "                 5. 5 pontbol,";
   "                 6. 6 pontbol,";
   "                 7. 7 pontbol,";
   "                 8. 8 pontbol,";
   "                 9. 9 pontbol,";
   "                10.  kilenc plusz";
   "                    egy pontbol, vagy";
   "                11. 11 pontbol,";
   "                allnak.";
   ""]%string)
  = Ok (mkActS (mkAct 2345 13) (lit "A tesztelésről") (lit "") (mkDate 2345 6 7) [] [(ChArticle (mkArticle (mkArt None (mkNum 1 None)) None [(mkSae None (BChildren (lit "A szamozott pontok akkor is pontok, ha") (PcNum [(mkSae (mkNum 1 None) (BText (lit "1 pontbol,")) si_default None); (mkSae (mkNum 2 None) (BText (lit "2 pontbol,")) si_default None); (mkSae (mkNum 3 None) (BText (lit "3 pontbol,")) si_default None); (mkSae (mkNum 4 None) (BText (lit "4 pontbol,")) si_default None); (mkSae (mkNum 5 None) (BText (lit "5 pontbol,")) si_default None); (mkSae (mkNum 6 None) (BText (lit "6 pontbol,")) si_default None); (mkSae (mkNum 7 None) (BText (lit "7 pontbol,")) si_default None); (mkSae (mkNum 8 None) (BText (lit "8 pontbol,")) si_default None); (mkSae (mkNum 9 None) (BText (lit "9 pontbol, vagy")) si_default None); (mkSae (mkNum 10 None) (BText (lit "10 pontbol,")) si_default None)]) (Some (lit "allnak."))) si_default None)] None)); (ChArticle (mkArticle (mkArt None (mkNum 2 None)) None [(mkSae None (BChildren (lit "Sot, akkor is, ha") (PcNum [(mkSae (mkNum 1 None) (BText (lit "1 pontbol,")) si_default None); (mkSae (mkNum 2 None) (BText (lit "2 pontbol,")) si_default None); (mkSae (mkNum 3 None) (BText (lit "3 pontbol,")) si_default None); (mkSae (mkNum 4 None) (BText (lit "4 pontbol,")) si_default None); (mkSae (mkNum 5 None) (BText (lit "5 pontbol,")) si_default None); (mkSae (mkNum 6 None) (BText (lit "6 pontbol,")) si_default None); (mkSae (mkNum 7 None) (BText (lit "7 pontbol,")) si_default None); (mkSae (mkNum 8 None) (BText (lit "8 pontbol,")) si_default None); (mkSae (mkNum 9 None) (BText (lit "9 pontbol,")) si_default None); (mkSae (mkNum 10 None) (BText (lit "kilenc plusz egy pontbol, vagy")) si_default None); (mkSae (mkNum 11 None) (BText (lit "11 pontbol,")) si_default None)]) (Some (lit "allnak."))) si_default None)] None))]).
Proof. vm_compute. reflexivity. Qed.
Example struct_quotes_1 : test_act (map lit
  ["1. § Az Önkéntes Kölcsönös Biztosító Pénztárakról szóló 1993. évi XCVI. törvény 40/A. § (1) bekezdésében";
   "az „a Ptk. 2:47. § (1) bekezdésében” szövegrész helyébe az „az üzleti titok védelméről szóló 2018. évi LIV. törvény";
   "1. § (1) bekezdésében” szöveg lép.";
   "2. § A második szakasz viszont mar";
   "„Csodalatos quote-olt blokk”";
   "meghozzá szöveggel utána";
   "3. § A harmadik szakasz pedig";
   "„Többet is tartalmaz”";
   "„Egyes idezett szövegeket";
   "több sorban is";
   "akár”";
   "";
   "“Kihagyott sorokkal, „nestelt";
   "";
   "idezetekkel” es egyeb";
   "finomsagokkal”";
   "meg persze idezojelen kivuli";
   "befejezessel.";
   "";
   "4. § [Elso soros dolgok]";
   "(1) Alelem parsingnal is fontos, hogy a „";
   "(2) jellegu szoveg";
   "(3) extra szivassal ”";
   "is helyes legyen";
   "(2) Valodi masodik, de itt meg az alpontok";
   "a) vannak  „direkt";
   "b) rosszul";
   "c) extra rosszul”";
   "b) valodi b)";
   "es wrap_up";
   "";
   "5. § [Masodik soros dolgok]";
   "(1) Alelem parsingnal is fontos,";
   "hogy a „";
   "(2) jellegu szoveg";
   "(3) extra";
   "szivassal ”";
   "is helyes legyen";
   "(2) Valodi masodik, de itt meg az alpontok";
   "a) vannak";
   "„direkt";
   "b) rosszul";
   "c) extra";
   "rosszul”";
   "b) valodi b)";
   "es wrap_up";
   ""]%string)
  = Ok (mkActS (mkAct 2345 13) (lit "A tesztelésről") (lit "") (mkDate 2345 6 7) [] [(ChArticle (mkArticle (mkArt None (mkNum 1 None)) None [(mkSae None (BText (lit "Az Önkéntes Kölcsönös Biztosító Pénztárakról szóló 1993. évi XCVI. törvény 40/A. § (1) bekezdésében az „a Ptk. 2:47. § (1) bekezdésében” szövegrész helyébe az „az üzleti titok védelméről szóló 2018. évi LIV. törvény 1. § (1) bekezdésében” szöveg lép.")) si_default None)] None)); (ChArticle (mkArticle (mkArt None (mkNum 2 None)) None [(mkSae None (BChildren (lit "A második szakasz viszont mar") (PcQuoted [(mkQb None [] None)]) (Some (lit "meghozzá szöveggel utána"))) si_default None)] None)); (ChArticle (mkArticle (mkArt None (mkNum 3 None)) None [(mkSae None (BChildren (lit "A harmadik szakasz pedig") (PcQuoted [(mkQb None [] None); (mkQb None [] None); (mkQb None [] None)]) (Some (lit "meg persze idezojelen kivuli befejezessel."))) si_default None)] None)); (ChArticle (mkArticle (mkArt None (mkNum 4 None)) (Some (lit "Elso soros dolgok")) [(mkSae (Some (mkNum 1 None)) (BText (lit "Alelem parsingnal is fontos, hogy a „ (2) jellegu szoveg (3) extra szivassal ” is helyes legyen")) si_default None); (mkSae (Some (mkNum 2 None)) (BChildren (lit "Valodi masodik, de itt meg az alpontok") (PcAlpha [(mkSae (Latin 97) (BText (lit "vannak „direkt b) rosszul c) extra rosszul”")) si_default None); (mkSae (Latin 98) (BText (lit "valodi b)")) si_default None)]) (Some (lit "es wrap_up"))) si_default None)] None)); (ChArticle (mkArticle (mkArt None (mkNum 5 None)) (Some (lit "Masodik soros dolgok")) [(mkSae (Some (mkNum 1 None)) (BText (lit "Alelem parsingnal is fontos, hogy a „ (2) jellegu szoveg (3) extra szivassal ” is helyes legyen")) si_default None); (mkSae (Some (mkNum 2 None)) (BChildren (lit "Valodi masodik, de itt meg az alpontok") (PcAlpha [(mkSae (Latin 97) (BText (lit "vannak „direkt b) rosszul c) extra rosszul”")) si_default None); (mkSae (Latin 98) (BText (lit "valodi b)")) si_default None)]) (Some (lit "es wrap_up"))) si_default None)] None))]).
Proof. vm_compute. reflexivity. Qed.
Example struct_quotes_2 : test_act (map lit
  ["       1. § A földgázellátásról szóló 2008. évi XL. törvény 48. § (4) bekezdésében az „a villamos energiáról szóló 2007. évi";
   "                LXXXVI. törvény szerinti átviteli rendszerirányítóra” szövegrész helyébe az „a rendszerirányítást végző szállítási";
   "                rendszerüzemeltetőre és a villamos energiáról szóló 2007. évi LXXXVI. törvény szerinti átviteli rendszerirányítóra”";
   "                szöveg lép.";
   "       2. § Ez a törvény a kihirdetését követő 15. napon lép hatályba.";
   ""]%string)
  = Ok (mkActS (mkAct 2345 13) (lit "A tesztelésről") (lit "") (mkDate 2345 6 7) [] [(ChArticle (mkArticle (mkArt None (mkNum 1 None)) None [(mkSae None (BText (lit "A földgázellátásról szóló 2008. évi XL. törvény 48. § (4) bekezdésében az „a villamos energiáról szóló 2007. évi LXXXVI. törvény szerinti átviteli rendszerirányítóra” szövegrész helyébe az „a rendszerirányítást végző szállítási rendszerüzemeltetőre és a villamos energiáról szóló 2007. évi LXXXVI. törvény szerinti átviteli rendszerirányítóra” szöveg lép.")) si_default None)] None)); (ChArticle (mkArticle (mkArt None (mkNum 2 None)) None [(mkSae None (BText (lit "Ez a törvény a kihirdetését követő 15. napon lép hatályba.")) si_default None)] None))]).
Proof. vm_compute. reflexivity. Qed.
Example struct_quotes_3 : test_act (map lit
  ["1. § Quote parsing is hard.";
   "(Because)";
   "It is not easy.";
   "";
   "2. § Quote parsing is done:";
   "(intro)";
   "„Többet is tartalmaz”";
   "(outro)";
   "";
   "3. § Quote parsing is done:";
   "(intro)";
   "„Többet is tartalmaz”";
   "weird outro";
   "";
   "4. § Quote parsing is done:";
   "";
   "(intro)";
   "";
   "„Többet is tartalmaz”";
   "";
   "(outro)";
   "";
   "5. § Quote parsing is done:";
   "(int";
   "ro)";
   "„Többet ";
   "is tartalmaz”";
   "(ou";
   "tro)";
   "";
   "6. § Multi intro and wrap_up:";
   "(int";
   "";
   "ro)";
   "(int";
   "";
   "ro)";
   "";
   "„Többet ";
   "";
   "is tartalmaz”";
   "„Többet is tartalmaz”";
   "„Többet ";
   "";
   "is tartalmaz”";
   "(ou";
   "";
   "tro)";
   "(ou";
   "";
   "tro)";
   "";
   "extra wrap";
   "up";
   "";
   "7. § A Magyar Fejlesztési Bank Részvénytársaságról szóló 2001. évi XX. törvény (a továbbiakban: MFB törvény) 3. §";
   "(2) bekezdés d) pont 1. alpontja helyébe a következő rendelkezés lép:";
   "(Az MFB Zrt. – az (1) bekezdésben meghatározott körben – az alábbi pénzügyi szolgáltatási tevékenységeket végezheti:";
   "d) a 2. § b) és c) pontjában szereplő feladatához közvetlenül kapcsolódóan)";
   "„1. pénzforgalmi szolgáltatások nyújtása – a pénzforgalmi számlavezetés kivételével – kizárólag jogi személy, egyéni";
   "cég és egyéni vállalkozó részére,”";
   ""]%string)
  = Ok (mkActS (mkAct 2345 13) (lit "A tesztelésről") (lit "") (mkDate 2345 6 7) [] [(ChArticle (mkArticle (mkArt None (mkNum 1 None)) None [(mkSae None (BText (lit "Quote parsing is hard. (Because) It is not easy.")) si_default None)] None)); (ChArticle (mkArticle (mkArt None (mkNum 2 None)) None [(mkSae None (BChildren (lit "Quote parsing is done:") (PcQuoted [(mkQb (Some (lit "intro")) [] (Some (lit "outro")))]) None) si_default None)] None)); (ChArticle (mkArticle (mkArt None (mkNum 3 None)) None [(mkSae None (BChildren (lit "Quote parsing is done:") (PcQuoted [(mkQb (Some (lit "intro")) [] None)]) (Some (lit "weird outro"))) si_default None)] None)); (ChArticle (mkArticle (mkArt None (mkNum 4 None)) None [(mkSae None (BChildren (lit "Quote parsing is done:") (PcQuoted [(mkQb (Some (lit "intro")) [] (Some (lit "outro")))]) None) si_default None)] None)); (ChArticle (mkArticle (mkArt None (mkNum 5 None)) None [(mkSae None (BChildren (lit "Quote parsing is done:") (PcQuoted [(mkQb (Some (lit "int ro")) [] (Some (lit "ou tro")))]) None) si_default None)] None)); (ChArticle (mkArticle (mkArt None (mkNum 6 None)) None [(mkSae None (BChildren (lit "Multi intro and wrap_up:") (PcQuoted [(mkQb (Some (lit "int ro int ro")) [] None); (mkQb None [] None); (mkQb None [] (Some (lit "ou tro ou tro")))]) (Some (lit "extra wrap up"))) si_default None)] None)); (ChArticle (mkArticle (mkArt None (mkNum 7 None)) None [(mkSae None (BChildren (lit "A Magyar Fejlesztési Bank Részvénytársaságról szóló 2001. évi XX. törvény (a továbbiakban: MFB törvény) 3. § (2) bekezdés d) pont 1. alpontja helyébe a következő rendelkezés lép:") (PcQuoted [(mkQb (Some (lit "Az MFB Zrt. – az (1) bekezdésben meghatározott körben – az alábbi pénzügyi szolgáltatási tevékenységeket végezheti: d) a 2. § b) és c) pontjában szereplő feladatához közvetlenül kapcsolódóan")) [] None)]) None) si_default None)] None))]).
Proof. vm_compute. reflexivity. Qed.
Example struct_quotes_4 : test_act (map lit
  ["1. § Quote parsing is hard.";
   "[Because]";
   "It is not easy.";
   "";
   "2. § Quote parsing is done:";
   "[intro]";
   "„Többet is tartalmaz”";
   "[outro]";
   "";
   "3. § Quote parsing is done:";
   "[intro]";
   "„Többet is tartalmaz”";
   "weird outro";
   "";
   "4. § Quote parsing is done:";
   "";
   "[intro]";
   "";
   "„Többet is tartalmaz”";
   "";
   "[outro]";
   "";
   "5. § Quote parsing is done:";
   "[int";
   "ro]";
   "„Többet ";
   "is tartalmaz”";
   "[ou";
   "tro]";
   "";
   "6. § Multi intro and wrap_up:";
   "[int";
   "";
   "ro]";
   "[int";
   "";
   "ro]";
   "";
   "„Többet ";
   "";
   "is tartalmaz”";
   "„Többet is tartalmaz”";
   "„Többet ";
   "";
   "is tartalmaz”";
   "[ou";
   "";
   "tro]";
   "[ou";
   "";
   "tro]";
   "";
   "extra wrap";
   "up";
   "";
   "7. § A Magyar Fejlesztési Bank Részvénytársaságról szóló 2001. évi XX. törvény (a továbbiakban: MFB törvény) 3. §";
   "(2) bekezdés d) pont 1. alpontja helyébe a következő rendelkezés lép:";
   "[Az MFB Zrt. – az (1) bekezdésben meghatározott körben – az alábbi pénzügyi szolgáltatási tevékenységeket végezheti:";
   "d) a 2. § b) és c) pontjában szereplő feladatához közvetlenül kapcsolódóan]";
   "„1. pénzforgalmi szolgáltatások nyújtása – a pénzforgalmi számlavezetés kivételével – kizárólag jogi személy, egyéni";
   "cég és egyéni vállalkozó részére,”";
   ""]%string)
  = Ok (mkActS (mkAct 2345 13) (lit "A tesztelésről") (lit "") (mkDate 2345 6 7) [] [(ChArticle (mkArticle (mkArt None (mkNum 1 None)) None [(mkSae None (BText (lit "Quote parsing is hard. [Because] It is not easy.")) si_default None)] None)); (ChArticle (mkArticle (mkArt None (mkNum 2 None)) None [(mkSae None (BChildren (lit "Quote parsing is done:") (PcQuoted [(mkQb (Some (lit "intro")) [] (Some (lit "outro")))]) None) si_default None)] None)); (ChArticle (mkArticle (mkArt None (mkNum 3 None)) None [(mkSae None (BChildren (lit "Quote parsing is done:") (PcQuoted [(mkQb (Some (lit "intro")) [] None)]) (Some (lit "weird outro"))) si_default None)] None)); (ChArticle (mkArticle (mkArt None (mkNum 4 None)) None [(mkSae None (BChildren (lit "Quote parsing is done:") (PcQuoted [(mkQb (Some (lit "intro")) [] (Some (lit "outro")))]) None) si_default None)] None)); (ChArticle (mkArticle (mkArt None (mkNum 5 None)) None [(mkSae None (BChildren (lit "Quote parsing is done:") (PcQuoted [(mkQb (Some (lit "int ro")) [] (Some (lit "ou tro")))]) None) si_default None)] None)); (ChArticle (mkArticle (mkArt None (mkNum 6 None)) None [(mkSae None (BChildren (lit "Multi intro and wrap_up:") (PcQuoted [(mkQb (Some (lit "int ro int ro")) [] None); (mkQb None [] None); (mkQb None [] (Some (lit "ou tro ou tro")))]) (Some (lit "extra wrap up"))) si_default None)] None)); (ChArticle (mkArticle (mkArt None (mkNum 7 None)) None [(mkSae None (BChildren (lit "A Magyar Fejlesztési Bank Részvénytársaságról szóló 2001. évi XX. törvény (a továbbiakban: MFB törvény) 3. § (2) bekezdés d) pont 1. alpontja helyébe a következő rendelkezés lép:") (PcQuoted [(mkQb (Some (lit "Az MFB Zrt. – az (1) bekezdésben meghatározott körben – az alábbi pénzügyi szolgáltatási tevékenységeket végezheti: d) a 2. § b) és c) pontjában szereplő feladatához közvetlenül kapcsolódóan")) [] None)]) None) si_default None)] None))]).
Proof. vm_compute. reflexivity. Qed.
Example struct_simple : test_act (map lit
  ["Torveny preambulummal";
   "tobb sorban.";
   "";
   "1. § Ebben a torvenyben mas nincs.";
   ""]%string)
  = Ok (mkActS (mkAct 2345 13) (lit "A tesztelésről") (lit "Torveny preambulummal tobb sorban.") (mkDate 2345 6 7) [] [(ChArticle (mkArticle (mkArt None (mkNum 1 None)) None [(mkSae None (BText (lit "Ebben a torvenyben mas nincs.")) si_default None)] None))]).
Proof. vm_compute. reflexivity. Qed.
Example struct_special_parts : test_act (map lit
  ["";
   "                                                             ÁLTALÁNOS RÉSZ";
   "";
   "                      I. CÍM";
   "                      A JOGKÉPESSÉG KEZDETE ÉS MEGSZŰNÉSE";
   "";
   "             1. §  Dummy article blah blah.";
   "";
   "             2. § [Dummy title]";
   "                 (1) Dummy paragraph.";
   "                 (2) Dummy paragraph.";
   "";
   "                    II. CÍM";
   "                    A HOLTNAK NYILVÁNÍTÁS";
   "";
   "             3. §  Dummy article blah blah.";
   "";
   "                                                         KÜLÖNÖS RÉSZ";
   "                                                     A CSELEKVŐKÉPESSÉG";
   "";
   "                    I. CÍM";
   "                    A CSELEKVŐKÉPESSÉG ÁLTALÁNOS SZABÁLYAI";
   "";
   "             4. §  Dummy article blah blah.";
   "";
   "                                                             ZÁRÓ RÉSZ";
   "";
   "                      I. CÍM";
   "                      ÁLTALÁNOS RENDELKEZÉSEK";
   "";
   "             5. §  Dummy article blah blah.";
   "             6. §  Dummy article blah blah.";
   ""]%string)
  = Ok (mkActS (mkAct 2345 13) (lit "A tesztelésről") (lit "") (mkDate 2345 6 7) [] [(ChStruct (mkSe (mkNum 1 None) (lit "") (TPart true) None)); (ChStruct (mkSe (mkNum 1 None) (lit "A JOGKÉPESSÉG KEZDETE ÉS MEGSZŰNÉSE") TTitle None)); (ChArticle (mkArticle (mkArt None (mkNum 1 None)) None [(mkSae None (BText (lit "Dummy article blah blah.")) si_default None)] None)); (ChArticle (mkArticle (mkArt None (mkNum 2 None)) (Some (lit "Dummy title")) [(mkSae (Some (mkNum 1 None)) (BText (lit "Dummy paragraph.")) si_default None); (mkSae (Some (mkNum 2 None)) (BText (lit "Dummy paragraph.")) si_default None)] None)); (ChStruct (mkSe (mkNum 2 None) (lit "A HOLTNAK NYILVÁNÍTÁS") TTitle None)); (ChArticle (mkArticle (mkArt None (mkNum 3 None)) None [(mkSae None (BText (lit "Dummy article blah blah.")) si_default None)] None)); (ChStruct (mkSe (mkNum 2 None) (lit "A CSELEKVŐKÉPESSÉG") (TPart true) None)); (ChStruct (mkSe (mkNum 1 None) (lit "A CSELEKVŐKÉPESSÉG ÁLTALÁNOS SZABÁLYAI") TTitle None)); (ChArticle (mkArticle (mkArt None (mkNum 4 None)) None [(mkSae None (BText (lit "Dummy article blah blah.")) si_default None)] None)); (ChStruct (mkSe (mkNum 3 None) (lit "") (TPart true) None)); (ChStruct (mkSe (mkNum 1 None) (lit "ÁLTALÁNOS RENDELKEZÉSEK") TTitle None)); (ChArticle (mkArticle (mkArt None (mkNum 5 None)) None [(mkSae None (BText (lit "Dummy article blah blah.")) si_default None)] None)); (ChArticle (mkArticle (mkArt None (mkNum 6 None)) None [(mkSae None (BText (lit "Dummy article blah blah.")) si_default None)] None))]).
Proof. vm_compute. reflexivity. Qed.
Example struct_structural_elements_1 : test_act (map lit
  ["             A törvények preambulumáról megfeledkezni";
   "";
   "             nem érdemes.";
   "";
   "                                                            ELSŐ KÖNYV";
   "                                                     BEVEZETŐ RENDELKEZÉSEK";
   "";
   "             1:1. §  Dummy article blah blah.";
   "             1:2. §  Dummy article blah blah.";
   "";
   "             1:3. §  Dummy article blah blah.";
   "             1:4. §  Dummy article blah blah.";
   "";
   "                                                         MÁSODIK KÖNYV";
   "                                                     AZ EMBER MINT JOGALANY";
   "";
   "                                                             ELSŐ RÉSZ";
   "                                                          A JOGKÉPESSÉG";
   "";
   "                      I. CÍM";
   "                      A JOGKÉPESSÉG KEZDETE ÉS MEGSZŰNÉSE";
   "";
   "             2:1. §  Dummy article blah blah.";
   "";
   "             2:2. § [Dummy title]";
   "                   (1) Dummy paragraph.";
   "                   (2) Dummy paragraph.";
   "";
   "                      II. CÍM";
   "                      A HOLTNAK NYILVÁNÍTÁS";
   "";
   "             2:3. §  Dummy article blah blah.";
   "";
   "                                                           MÁSODIK RÉSZ";
   "                                                       A CSELEKVŐKÉPESSÉG";
   "";
   "                      III. CÍM";
   "                      A CSELEKVŐKÉPESSÉG ÁLTALÁNOS SZABÁLYAI";
   "";
   "             2:4. §  Dummy article blah blah.";
   "";
   "                                                         HARMADIK KÖNYV";
   "                                                          A JOGI SZEMÉLY";
   "";
   "                                                             ELSŐ RÉSZ";
   "                                               A JOGI SZEMÉLY ÁLTALÁNOS SZABÁLYAI";
   "";
   "                      I. CÍM";
   "                      ÁLTALÁNOS RENDELKEZÉSEK";
   "";
   "             3:1. §  Dummy article blah blah.";
   "             3:2. §  Dummy article blah blah.";
   "";
   "                      II. CÍM";
   "                      A JOGI SZEMÉLY LÉTESÍTÉSE";
   "";
   "               <BOLD> I. Fejezet";
   "               <BOLD> A létesítés szabadsága";
   "";
   "             3:3. §  Dummy article blah blah.";
   "";
   "               <BOLD> II. Fejezet";
   "               <BOLD> A létesítő okirat";
   "";
   "             3:4. §  Dummy article blah blah.";
   "";
   "               <BOLD> III. Fejezet";
   "               <BOLD> A gazdasági társaság szervezete";
   "";
   "               <BOLD> 1. A gazdasági társaság legfőbb szerve";
   "";
   "             3:5. §  Dummy article blah blah.";
   "";
   "               <BOLD> 2. Ügyvezetés és képviselet";
   "";
   "             3:6. §  Dummy article blah blah.";
   "";
   "               <BOLD> IV. Fejezet";
   "               <BOLD> Másolat a gazdasági társaság szervezetéről";
   "";
   "               <BOLD> 1. Másolat a gazdasági társaság legfőbb szervéről";
   "";
   "             3:7. §  Dummy article blah blah.";
   "";
   "               <BOLD> 2. Másolat ay ügyvezetés és képviseletről";
   "";
   "             3:8. §  Dummy article blah blah.";
   ""]%string)
  = Ok (mkActS (mkAct 2345 13) (lit "A tesztelésről") (lit "A törvények preambulumáról megfeledkezni nem érdemes.") (mkDate 2345 6 7) [] [(ChStruct (mkSe (mkNum 1 None) (lit "BEVEZETŐ RENDELKEZÉSEK") TBook None)); (ChArticle (mkArticle (mkArt (Some 1) (mkNum 1 None)) None [(mkSae None (BText (lit "Dummy article blah blah.")) si_default None)] None)); (ChArticle (mkArticle (mkArt (Some 1) (mkNum 2 None)) None [(mkSae None (BText (lit "Dummy article blah blah.")) si_default None)] None)); (ChArticle (mkArticle (mkArt (Some 1) (mkNum 3 None)) None [(mkSae None (BText (lit "Dummy article blah blah.")) si_default None)] None)); (ChArticle (mkArticle (mkArt (Some 1) (mkNum 4 None)) None [(mkSae None (BText (lit "Dummy article blah blah.")) si_default None)] None)); (ChStruct (mkSe (mkNum 2 None) (lit "AZ EMBER MINT JOGALANY") TBook None)); (ChStruct (mkSe (mkNum 1 None) (lit "A JOGKÉPESSÉG") (TPart false) None)); (ChStruct (mkSe (mkNum 1 None) (lit "A JOGKÉPESSÉG KEZDETE ÉS MEGSZŰNÉSE") TTitle None)); (ChArticle (mkArticle (mkArt (Some 2) (mkNum 1 None)) None [(mkSae None (BText (lit "Dummy article blah blah.")) si_default None)] None)); (ChArticle (mkArticle (mkArt (Some 2) (mkNum 2 None)) (Some (lit "Dummy title")) [(mkSae (Some (mkNum 1 None)) (BText (lit "Dummy paragraph.")) si_default None); (mkSae (Some (mkNum 2 None)) (BText (lit "Dummy paragraph.")) si_default None)] None)); (ChStruct (mkSe (mkNum 2 None) (lit "A HOLTNAK NYILVÁNÍTÁS") TTitle None)); (ChArticle (mkArticle (mkArt (Some 2) (mkNum 3 None)) None [(mkSae None (BText (lit "Dummy article blah blah.")) si_default None)] None)); (ChStruct (mkSe (mkNum 2 None) (lit "A CSELEKVŐKÉPESSÉG") (TPart false) None)); (ChStruct (mkSe (mkNum 3 None) (lit "A CSELEKVŐKÉPESSÉG ÁLTALÁNOS SZABÁLYAI") TTitle None)); (ChArticle (mkArticle (mkArt (Some 2) (mkNum 4 None)) None [(mkSae None (BText (lit "Dummy article blah blah.")) si_default None)] None)); (ChStruct (mkSe (mkNum 3 None) (lit "A JOGI SZEMÉLY") TBook None)); (ChStruct (mkSe (mkNum 1 None) (lit "A JOGI SZEMÉLY ÁLTALÁNOS SZABÁLYAI") (TPart false) None)); (ChStruct (mkSe (mkNum 1 None) (lit "ÁLTALÁNOS RENDELKEZÉSEK") TTitle None)); (ChArticle (mkArticle (mkArt (Some 3) (mkNum 1 None)) None [(mkSae None (BText (lit "Dummy article blah blah.")) si_default None)] None)); (ChArticle (mkArticle (mkArt (Some 3) (mkNum 2 None)) None [(mkSae None (BText (lit "Dummy article blah blah.")) si_default None)] None)); (ChStruct (mkSe (mkNum 2 None) (lit "A JOGI SZEMÉLY LÉTESÍTÉSE") TTitle None)); (ChStruct (mkSe (mkNum 1 None) (lit "A létesítés szabadsága") TChapter None)); (ChArticle (mkArticle (mkArt (Some 3) (mkNum 3 None)) None [(mkSae None (BText (lit "Dummy article blah blah.")) si_default None)] None)); (ChStruct (mkSe (mkNum 2 None) (lit "A létesítő okirat") TChapter None)); (ChArticle (mkArticle (mkArt (Some 3) (mkNum 4 None)) None [(mkSae None (BText (lit "Dummy article blah blah.")) si_default None)] None)); (ChStruct (mkSe (mkNum 3 None) (lit "A gazdasági társaság szervezete") TChapter None)); (ChSubtitle (mkSub (Some (mkNum 1 None)) (lit "A gazdasági társaság legfőbb szerve") None)); (ChArticle (mkArticle (mkArt (Some 3) (mkNum 5 None)) None [(mkSae None (BText (lit "Dummy article blah blah.")) si_default None)] None)); (ChSubtitle (mkSub (Some (mkNum 2 None)) (lit "Ügyvezetés és képviselet") None)); (ChArticle (mkArticle (mkArt (Some 3) (mkNum 6 None)) None [(mkSae None (BText (lit "Dummy article blah blah.")) si_default None)] None)); (ChStruct (mkSe (mkNum 4 None) (lit "Másolat a gazdasági társaság szervezetéről") TChapter None)); (ChSubtitle (mkSub (Some (mkNum 1 None)) (lit "Másolat a gazdasági társaság legfőbb szervéről") None)); (ChArticle (mkArticle (mkArt (Some 3) (mkNum 7 None)) None [(mkSae None (BText (lit "Dummy article blah blah.")) si_default None)] None)); (ChSubtitle (mkSub (Some (mkNum 2 None)) (lit "Másolat ay ügyvezetés és képviseletről") None)); (ChArticle (mkArticle (mkArt (Some 3) (mkNum 8 None)) None [(mkSae None (BText (lit "Dummy article blah blah.")) si_default None)] None))]).
Proof. vm_compute. reflexivity. Qed.
Example struct_structural_elements_2 : test_act (map lit
  ["";
   "                                                            ELSŐ KÖNYV";
   "                                                     BEVEZETŐ RENDELKEZÉSEK";
   "";
   "             1:1. §  Dummy article blah blah.";
   "             1:2. §  Dummy article blah blah.";
   "";
   "             1:3. §  Dummy article blah blah.";
   "             1:4. §  Dummy article blah blah.";
   "";
   "                                                         MÁSODIK KÖNYV";
   "                                                     AZ EMBER MINT JOGALANY";
   "";
   "                                                             ELSŐ RÉSZ";
   "                                                          A JOGKÉPESSÉG";
   "";
   "                      I. CÍM";
   "                      A JOGKÉPESSÉG KEZDETE ÉS MEGSZŰNÉSE";
   "";
   "             2:1. §  Dummy article blah blah.";
   "";
   "             2:2. § [Dummy title]";
   "                   (1) Dummy paragraph.";
   "                   (2) Dummy paragraph.";
   "";
   "                      I/A. CÍM";
   "                      A HOLTNAK NYILVÁNÍTÁS";
   "";
   "             2:3. §  Dummy article blah blah.";
   "";
   "                                                           MÁSODIK RÉSZ";
   "                                                       A CSELEKVŐKÉPESSÉG";
   "";
   "                      I/B. CÍM";
   "                      A CSELEKVŐKÉPESSÉG ÁLTALÁNOS SZABÁLYAI";
   "";
   "             2:4. §  Dummy article blah blah.";
   "";
   "                                                         HARMADIK KÖNYV";
   "                                                          A JOGI SZEMÉLY";
   "";
   "                                                             ELSŐ RÉSZ";
   "                                               A JOGI SZEMÉLY ÁLTALÁNOS SZABÁLYAI";
   "";
   "                      I. CÍM";
   "                      ÁLTALÁNOS RENDELKEZÉSEK";
   "";
   "             3:1. §  Dummy article blah blah.";
   "             3:2. §  Dummy article blah blah.";
   "";
   "                      II. CÍM";
   "                      A JOGI SZEMÉLY LÉTESÍTÉSE";
   "";
   "               <BOLD> I. Fejezet";
   "               <BOLD> A létesítés szabadsága";
   "";
   "             3:3. §  Dummy article blah blah.";
   "";
   "               <BOLD> I/A. Fejezet";
   "               <BOLD> A létesítő okirat";
   "";
   "             3:4. §  Dummy article blah blah.";
   "";
   "               <BOLD> II. Fejezet";
   "               <BOLD> A gazdasági társaság szervezete";
   "";
   "               <BOLD> 1. A gazdasági társaság legfőbb szerve";
   "";
   "             3:5. §  Dummy article blah blah.";
   "";
   "               <BOLD> 1/A. Ügyvezetés és képviselet";
   "";
   "             3:6. §  Dummy article blah blah.";
   "";
   "               <BOLD> III. Fejezet";
   "               <BOLD> Másolat a gazdasági társaság szervezetéről";
   "";
   "               <BOLD> 1. Másolat a gazdasági társaság legfőbb szervéről";
   "";
   "             3:7. §  Dummy article blah blah.";
   "";
   "               <BOLD> 2. Másolat az ügyvezetés és képviseletről";
   "";
   "             3:8. §  Dummy article blah blah.";
   ""]%string)
  = Ok (mkActS (mkAct 2345 13) (lit "A tesztelésről") (lit "") (mkDate 2345 6 7) [] [(ChStruct (mkSe (mkNum 1 None) (lit "BEVEZETŐ RENDELKEZÉSEK") TBook None)); (ChArticle (mkArticle (mkArt (Some 1) (mkNum 1 None)) None [(mkSae None (BText (lit "Dummy article blah blah.")) si_default None)] None)); (ChArticle (mkArticle (mkArt (Some 1) (mkNum 2 None)) None [(mkSae None (BText (lit "Dummy article blah blah.")) si_default None)] None)); (ChArticle (mkArticle (mkArt (Some 1) (mkNum 3 None)) None [(mkSae None (BText (lit "Dummy article blah blah.")) si_default None)] None)); (ChArticle (mkArticle (mkArt (Some 1) (mkNum 4 None)) None [(mkSae None (BText (lit "Dummy article blah blah.")) si_default None)] None)); (ChStruct (mkSe (mkNum 2 None) (lit "AZ EMBER MINT JOGALANY") TBook None)); (ChStruct (mkSe (mkNum 1 None) (lit "A JOGKÉPESSÉG") (TPart false) None)); (ChStruct (mkSe (mkNum 1 None) (lit "A JOGKÉPESSÉG KEZDETE ÉS MEGSZŰNÉSE") TTitle None)); (ChArticle (mkArticle (mkArt (Some 2) (mkNum 1 None)) None [(mkSae None (BText (lit "Dummy article blah blah.")) si_default None)] None)); (ChArticle (mkArticle (mkArt (Some 2) (mkNum 2 None)) (Some (lit "Dummy title")) [(mkSae (Some (mkNum 1 None)) (BText (lit "Dummy paragraph.")) si_default None); (mkSae (Some (mkNum 2 None)) (BText (lit "Dummy paragraph.")) si_default None)] None)); (ChStruct (mkSe (mkNum 1 (Some (Latin 97))) (lit "A HOLTNAK NYILVÁNÍTÁS") TTitle None)); (ChArticle (mkArticle (mkArt (Some 2) (mkNum 3 None)) None [(mkSae None (BText (lit "Dummy article blah blah.")) si_default None)] None)); (ChStruct (mkSe (mkNum 2 None) (lit "A CSELEKVŐKÉPESSÉG") (TPart false) None)); (ChStruct (mkSe (mkNum 1 (Some (Latin 98))) (lit "A CSELEKVŐKÉPESSÉG ÁLTALÁNOS SZABÁLYAI") TTitle None)); (ChArticle (mkArticle (mkArt (Some 2) (mkNum 4 None)) None [(mkSae None (BText (lit "Dummy article blah blah.")) si_default None)] None)); (ChStruct (mkSe (mkNum 3 None) (lit "A JOGI SZEMÉLY") TBook None)); (ChStruct (mkSe (mkNum 1 None) (lit "A JOGI SZEMÉLY ÁLTALÁNOS SZABÁLYAI") (TPart false) None)); (ChStruct (mkSe (mkNum 1 None) (lit "ÁLTALÁNOS RENDELKEZÉSEK") TTitle None)); (ChArticle (mkArticle (mkArt (Some 3) (mkNum 1 None)) None [(mkSae None (BText (lit "Dummy article blah blah.")) si_default None)] None)); (ChArticle (mkArticle (mkArt (Some 3) (mkNum 2 None)) None [(mkSae None (BText (lit "Dummy article blah blah.")) si_default None)] None)); (ChStruct (mkSe (mkNum 2 None) (lit "A JOGI SZEMÉLY LÉTESÍTÉSE") TTitle None)); (ChStruct (mkSe (mkNum 1 None) (lit "A létesítés szabadsága") TChapter None)); (ChArticle (mkArticle (mkArt (Some 3) (mkNum 3 None)) None [(mkSae None (BText (lit "Dummy article blah blah.")) si_default None)] None)); (ChStruct (mkSe (mkNum 1 (Some (Latin 97))) (lit "A létesítő okirat") TChapter None)); (ChArticle (mkArticle (mkArt (Some 3) (mkNum 4 None)) None [(mkSae None (BText (lit "Dummy article blah blah.")) si_default None)] None)); (ChStruct (mkSe (mkNum 2 None) (lit "A gazdasági társaság szervezete") TChapter None)); (ChSubtitle (mkSub (Some (mkNum 1 None)) (lit "A gazdasági társaság legfőbb szerve") None)); (ChArticle (mkArticle (mkArt (Some 3) (mkNum 5 None)) None [(mkSae None (BText (lit "Dummy article blah blah.")) si_default None)] None)); (ChSubtitle (mkSub (Some (mkNum 1 (Some (Latin 97)))) (lit "Ügyvezetés és képviselet") None)); (ChArticle (mkArticle (mkArt (Some 3) (mkNum 6 None)) None [(mkSae None (BText (lit "Dummy article blah blah.")) si_default None)] None)); (ChStruct (mkSe (mkNum 3 None) (lit "Másolat a gazdasági társaság szervezetéről") TChapter None)); (ChSubtitle (mkSub (Some (mkNum 1 None)) (lit "Másolat a gazdasági társaság legfőbb szervéről") None)); (ChArticle (mkArticle (mkArt (Some 3) (mkNum 7 None)) None [(mkSae None (BText (lit "Dummy article blah blah.")) si_default None)] None)); (ChSubtitle (mkSub (Some (mkNum 2 None)) (lit "Másolat az ügyvezetés és képviseletről") None)); (ChArticle (mkArticle (mkArt (Some 3) (mkNum 8 None)) None [(mkSae None (BText (lit "Dummy article blah blah.")) si_default None)] None))]).
Proof. vm_compute. reflexivity. Qed.
Example struct_structural_elements_noindent : test_act (map lit
  ["ELSŐ KÖNYV";
   "BEVEZETŐ RENDELKEZÉSEK";
   "1:1. §  Dummy article blah blah.";
   "1:2. §  Dummy article blah blah.";
   "1:3. §  Dummy article blah blah.";
   "1:4. §  Dummy article blah blah.";
   "MÁSODIK KÖNYV";
   "AZ EMBER MINT JOGALANY";
   "ELSŐ RÉSZ";
   "A JOGKÉPESSÉG";
   "I. CÍM";
   "A JOGKÉPESSÉG KEZDETE ÉS MEGSZŰNÉSE";
   "2:1. §  Dummy article blah blah.";
   "2:2. § [Dummy title]";
   "(1) Dummy paragraph.";
   "(2) Dummy paragraph.";
   "II. CÍM";
   "A HOLTNAK NYILVÁNÍTÁS";
   "2:3. §  Dummy article blah blah.";
   "MÁSODIK RÉSZ";
   "A CSELEKVŐKÉPESSÉG";
   "III. CÍM";
   "A CSELEKVŐKÉPESSÉG";
   "ÁLTALÁNOS SZABÁLYAI";
   "2:4. §  Dummy article blah blah.";
   "HARMADIK KÖNYV";
   "A JOGI SZEMÉLY";
   "ELSŐ RÉSZ";
   "A JOGI SZEMÉLY ÁLTALÁNOS SZABÁLYAI";
   "I. CÍM";
   "ÁLTALÁNOS RENDELKEZÉSEK";
   "3:1. §  Dummy article blah blah.";
   "3:2. §  Dummy article blah blah.";
   "II. CÍM";
   "A JOGI SZEMÉLY LÉTESÍTÉSE";
   "<BOLD> I. Fejezet";
   "<BOLD> A létesítés szabadsága";
   "3:3. §  Dummy article blah blah.";
   "<BOLD> II. Fejezet";
   "<BOLD> A létesítő okirat";
   "3:4. §  Dummy article blah blah.";
   "<BOLD> III. Fejezet";
   "<BOLD> A gazdasági társaság szervezete";
   "<BOLD> 1. A gazdasági társaság legfőbb szerve";
   "3:5. §  Dummy article blah blah.";
   "<BOLD> 2. Ügyvezetés és képviselet";
   "3:6. §  Dummy article blah blah.";
   "<BOLD> IV. Fejezet";
   "<BOLD> Másolat a gazdasági társaság szervezetéről";
   "<BOLD> 1. Másolat a gazdasági";
   "<BOLD> társaság legfőbb szervéről";
   "3:7. §  Dummy article blah blah.";
   "<BOLD> 2. Másolat ay ügyvezetés és képviseletről";
   "3:8. §  Dummy article blah blah.";
   ""]%string)
  = Ok (mkActS (mkAct 2345 13) (lit "A tesztelésről") (lit "") (mkDate 2345 6 7) [] [(ChStruct (mkSe (mkNum 1 None) (lit "BEVEZETŐ RENDELKEZÉSEK") TBook None)); (ChArticle (mkArticle (mkArt (Some 1) (mkNum 1 None)) None [(mkSae None (BText (lit "Dummy article blah blah.")) si_default None)] None)); (ChArticle (mkArticle (mkArt (Some 1) (mkNum 2 None)) None [(mkSae None (BText (lit "Dummy article blah blah.")) si_default None)] None)); (ChArticle (mkArticle (mkArt (Some 1) (mkNum 3 None)) None [(mkSae None (BText (lit "Dummy article blah blah.")) si_default None)] None)); (ChArticle (mkArticle (mkArt (Some 1) (mkNum 4 None)) None [(mkSae None (BText (lit "Dummy article blah blah.")) si_default None)] None)); (ChStruct (mkSe (mkNum 2 None) (lit "AZ EMBER MINT JOGALANY") TBook None)); (ChStruct (mkSe (mkNum 1 None) (lit "A JOGKÉPESSÉG") (TPart false) None)); (ChStruct (mkSe (mkNum 1 None) (lit "A JOGKÉPESSÉG KEZDETE ÉS MEGSZŰNÉSE") TTitle None)); (ChArticle (mkArticle (mkArt (Some 2) (mkNum 1 None)) None [(mkSae None (BText (lit "Dummy article blah blah.")) si_default None)] None)); (ChArticle (mkArticle (mkArt (Some 2) (mkNum 2 None)) (Some (lit "Dummy title")) [(mkSae (Some (mkNum 1 None)) (BText (lit "Dummy paragraph.")) si_default None); (mkSae (Some (mkNum 2 None)) (BText (lit "Dummy paragraph.")) si_default None)] None)); (ChStruct (mkSe (mkNum 2 None) (lit "A HOLTNAK NYILVÁNÍTÁS") TTitle None)); (ChArticle (mkArticle (mkArt (Some 2) (mkNum 3 None)) None [(mkSae None (BText (lit "Dummy article blah blah.")) si_default None)] None)); (ChStruct (mkSe (mkNum 2 None) (lit "A CSELEKVŐKÉPESSÉG") (TPart false) None)); (ChStruct (mkSe (mkNum 3 None) (lit "A CSELEKVŐKÉPESSÉG ÁLTALÁNOS SZABÁLYAI") TTitle None)); (ChArticle (mkArticle (mkArt (Some 2) (mkNum 4 None)) None [(mkSae None (BText (lit "Dummy article blah blah.")) si_default None)] None)); (ChStruct (mkSe (mkNum 3 None) (lit "A JOGI SZEMÉLY") TBook None)); (ChStruct (mkSe (mkNum 1 None) (lit "A JOGI SZEMÉLY ÁLTALÁNOS SZABÁLYAI") (TPart false) None)); (ChStruct (mkSe (mkNum 1 None) (lit "ÁLTALÁNOS RENDELKEZÉSEK") TTitle None)); (ChArticle (mkArticle (mkArt (Some 3) (mkNum 1 None)) None [(mkSae None (BText (lit "Dummy article blah blah.")) si_default None)] None)); (ChArticle (mkArticle (mkArt (Some 3) (mkNum 2 None)) None [(mkSae None (BText (lit "Dummy article blah blah.")) si_default None)] None)); (ChStruct (mkSe (mkNum 2 None) (lit "A JOGI SZEMÉLY LÉTESÍTÉSE") TTitle None)); (ChStruct (mkSe (mkNum 1 None) (lit "A létesítés szabadsága") TChapter None)); (ChArticle (mkArticle (mkArt (Some 3) (mkNum 3 None)) None [(mkSae None (BText (lit "Dummy article blah blah.")) si_default None)] None)); (ChStruct (mkSe (mkNum 2 None) (lit "A létesítő okirat") TChapter None)); (ChArticle (mkArticle (mkArt (Some 3) (mkNum 4 None)) None [(mkSae None (BText (lit "Dummy article blah blah.")) si_default None)] None)); (ChStruct (mkSe (mkNum 3 None) (lit "A gazdasági társaság szervezete") TChapter None)); (ChSubtitle (mkSub (Some (mkNum 1 None)) (lit "A gazdasági társaság legfőbb szerve") None)); (ChArticle (mkArticle (mkArt (Some 3) (mkNum 5 None)) None [(mkSae None (BText (lit "Dummy article blah blah.")) si_default None)] None)); (ChSubtitle (mkSub (Some (mkNum 2 None)) (lit "Ügyvezetés és képviselet") None)); (ChArticle (mkArticle (mkArt (Some 3) (mkNum 6 None)) None [(mkSae None (BText (lit "Dummy article blah blah.")) si_default None)] None)); (ChStruct (mkSe (mkNum 4 None) (lit "Másolat a gazdasági társaság szervezetéről") TChapter None)); (ChSubtitle (mkSub (Some (mkNum 1 None)) (lit "Másolat a gazdasági társaság legfőbb szervéről") None)); (ChArticle (mkArticle (mkArt (Some 3) (mkNum 7 None)) None [(mkSae None (BText (lit "Dummy article blah blah.")) si_default None)] None)); (ChSubtitle (mkSub (Some (mkNum 2 None)) (lit "Másolat ay ügyvezetés és képviseletről") None)); (ChArticle (mkArticle (mkArt (Some 3) (mkNum 8 None)) None [(mkSae None (BText (lit "Dummy article blah blah.")) si_default None)] None))]).
Proof. vm_compute. reflexivity. Qed.
Example struct_subpoints : test_act (map lit
  ["Fake preamble.";
   "";
   "           <BOLD> 1. A törvény hatálya";
   "";
   "         1. § E törvény hatálya kiterjed a gondnokoltak, az előzetes jognyilatkozatot tett személyek és az előzetes";
   "                  jognyilatkozataik adatainak a nyilvántartására (a továbbiakban együtt: nyilvántartások).";
   "";
   "           <BOLD> 2. A gondnokoltak nyilvántartása";
   "";
   "         2. § A gondnokoltak nyilvántartásában szereplő adatok kezelésének célja a gondnokság alá helyezés tényének igazolása";
   "                  a gondnokság alá helyezett személy jogai gyakorlásának elősegítése, illetve harmadik személyek jogainak védelme";
   "                  érdekében.";
   "";
   "         3. § (1) A gondnokoltak nyilvántartása a következő adatokat és a változás időpontjának megjelölésével az adatváltozásokat";
   "                  tartalmazza:";
   "                  a) a gondnokolt";
   "                       aa) családi és utónevét,";
   "                       ab) születési családi és utónevét,";
   "";
   "                       ac) születési helyét és idejét,";
   "                       ad) anyjának születési családi és utónevét,";
   "                       ae) lakcímét,";
   "                  b) a gondnokság alá helyezésről, annak módosításáról, felülvizsgálatáról, megszüntetéséről jogerős határozatot";
   "                       hozó bíróság megnevezését és ügyszámát,";
   "                  c) a gondnokság alá helyezés, annak módosítása, felülvizsgálata, megszüntetése tárgyában hozott határozat";
   "                       jogerőre emelkedésének napját,";
   "                  d) a gondnokság cselekvőképességet korlátozó részleges vagy teljes jellegét,";
   "                  e) a bíróságnak a cselekvőképességet részlegesen korlátozó ítéletében meghatározott ügycsoportot vagy";
   "                       ügycsoportokat,";
   "                  f) a gondnokság alá helyezés kötelező felülvizsgálatának időpontját és";
   "                  g) a választójogból való kizárás tényét, ha a bíróság a gondnokság alá helyezett személyt a választójogból";
   "                       kizárta.";
   "              (2) A gondnokoltak nyilvántartásában fel kell tüntetni a gondnokolt halálának tényét és időpontját.";
   "              (3) Az (1) bekezdés b)–f) pontja szerinti adatokat a gondnokoltak nyilvántartása közhitelesen tartalmazza.";
   ""]%string)
  = Ok (mkActS (mkAct 2345 13) (lit "A tesztelésről") (lit "Fake preamble.") (mkDate 2345 6 7) [] [(ChSubtitle (mkSub (Some (mkNum 1 None)) (lit "A törvény hatálya") None)); (ChArticle (mkArticle (mkArt None (mkNum 1 None)) None [(mkSae None (BText (lit "E törvény hatálya kiterjed a gondnokoltak, az előzetes jognyilatkozatot tett személyek és az előzetes jognyilatkozataik adatainak a nyilvántartására (a továbbiakban együtt: nyilvántartások).")) si_default None)] None)); (ChSubtitle (mkSub (Some (mkNum 2 None)) (lit "A gondnokoltak nyilvántartása") None)); (ChArticle (mkArticle (mkArt None (mkNum 2 None)) None [(mkSae None (BText (lit "A gondnokoltak nyilvántartásában szereplő adatok kezelésének célja a gondnokság alá helyezés tényének igazolása a gondnokság alá helyezett személy jogai gyakorlásának elősegítése, illetve harmadik személyek jogainak védelme érdekében.")) si_default None)] None)); (ChArticle (mkArticle (mkArt None (mkNum 3 None)) None [(mkSae (Some (mkNum 1 None)) (BChildren (lit "A gondnokoltak nyilvántartása a következő adatokat és a változás időpontjának megjelölésével az adatváltozásokat tartalmazza:") (PcAlpha [(mkSae (Latin 97) (BChildren (lit "a gondnokolt") (AcAlpha [(mkSae (mkPre (Some (Latin 97)) (Latin 97)) (BText (lit "családi és utónevét,")) si_default None); (mkSae (mkPre (Some (Latin 97)) (Latin 98)) (BText (lit "születési családi és utónevét,")) si_default None); (mkSae (mkPre (Some (Latin 97)) (Latin 99)) (BText (lit "születési helyét és idejét,")) si_default None); (mkSae (mkPre (Some (Latin 97)) (Latin 100)) (BText (lit "anyjának születési családi és utónevét,")) si_default None); (mkSae (mkPre (Some (Latin 97)) (Latin 101)) (BText (lit "lakcímét,")) si_default None)]) None) si_default None); (mkSae (Latin 98) (BText (lit "a gondnokság alá helyezésről, annak módosításáról, felülvizsgálatáról, megszüntetéséről jogerős határozatot hozó bíróság megnevezését és ügyszámát,")) si_default None); (mkSae (Latin 99) (BText (lit "a gondnokság alá helyezés, annak módosítása, felülvizsgálata, megszüntetése tárgyában hozott határozat jogerőre emelkedésének napját,")) si_default None); (mkSae (Latin 100) (BText (lit "a gondnokság cselekvőképességet korlátozó részleges vagy teljes jellegét,")) si_default None); (mkSae (Latin 101) (BText (lit "a bíróságnak a cselekvőképességet részlegesen korlátozó ítéletében meghatározott ügycsoportot vagy ügycsoportokat,")) si_default None); (mkSae (Latin 102) (BText (lit "a gondnokság alá helyezés kötelező felülvizsgálatának időpontját és")) si_default None); (mkSae (Latin 103) (BText (lit "a választójogból való kizárás tényét, ha a bíróság a gondnokság alá helyezett személyt a választójogból kizárta.")) si_default None)]) None) si_default None); (mkSae (Some (mkNum 2 None)) (BText (lit "A gondnokoltak nyilvántartásában fel kell tüntetni a gondnokolt halálának tényét és időpontját.")) si_default None); (mkSae (Some (mkNum 3 None)) (BText (lit "Az (1) bekezdés b)–f) pontja szerinti adatokat a gondnokoltak nyilvántartása közhitelesen tartalmazza.")) si_default None)] None))]).
Proof. vm_compute. reflexivity. Qed.
Example struct_subpoints_act_like : test_act (map lit
  ["<BOLD>Alcim 1";
   "1. § Ajj, mehet.";
   "";
   "<BOLD>Alcim 2 a";
   "<BOLD>2012. évi CVI. törvényről";
   "2. § A szamozott pontok azert meg mukodnek:";
   "    1. Pont";
   "    2. Pont";
   ""]%string)
  = Ok (mkActS (mkAct 2345 13) (lit "A tesztelésről") (lit "") (mkDate 2345 6 7) [] [(ChSubtitle (mkSub None (lit "Alcim 1") None)); (ChArticle (mkArticle (mkArt None (mkNum 1 None)) None [(mkSae None (BText (lit "Ajj, mehet.")) si_default None)] None)); (ChSubtitle (mkSub None (lit "Alcim 2 a 2012. évi CVI. törvényről") None)); (ChArticle (mkArticle (mkArt None (mkNum 2 None)) None [(mkSae None (BChildren (lit "A szamozott pontok azert meg mukodnek:") (PcNum [(mkSae (mkNum 1 None) (BText (lit "Pont")) si_default None); (mkSae (mkNum 2 None) (BText (lit "Pont")) si_default None)]) None) si_default None)] None))]).
Proof. vm_compute. reflexivity. Qed.
Example struct_subpoints_depending_on_indent : test_act (map lit
  ["          1. § (1) A bíróság polgári peres és nemperes eljárás vagy büntetőeljárás lefolytatása céljából a gondnokoltak";
   "                  nyilvántartásában kezelt adatok teljes körét közvetlen adathozzáféréssel (a továbbiakban: közvetlen hozzáférés)";
   "                  jogosult megismerni és kezelni.";
   "               (2) A gondnokoltak nyilvántartásában az érintettre vonatkozóan szereplő alábbi adatokat a cselekvőképesség";
   "                  fennállásának vizsgálata céljából konkrét ügyben közvetlen hozzáféréssel jogosult megismerni és kezelni:";
   "                  a) az ügyészség és a nyomozó hatóság a büntetőeljárás lefolytatása céljából, valamint a büntetés-végrehajtási";
   "                       szervezet és a rendőrség a fogvatartott gondnokának értesítése céljából a 3. § (1) bekezdés a)–f) pontjában";
   "                       szereplő adatokat,";
   "                  b) a rendőrség a fegyverengedély-ügyi és a személy- és vagyonvédelmi, valamint magánnyomozói tevékenység";
   "                       végzésével összefüggő hatósági engedélyezési feladatok ellátása céljából a 3. § (1) bekezdés a)–f) pontjában";
   "                       szereplő adatokat,";
   "                  c) az ügyészség a gondnokság alá helyezés, annak megszüntetése vagy módosítása, a választójogból való";
   "                       kizárás vagy a választójogból való kizárás megszüntetése iránti per megindításával kapcsolatos feladatai";
   "                       ellátása során a 3. § (1) bekezdésében szereplő adatokat,";
   "                  d) a közjegyző polgári nemperes eljárás lefolytatása céljából a 3. § (1) bekezdés a)–e) pontjában szereplő";
   "                       adatokat,";
   "                  e) az önálló bírósági végrehajtó a bírósági végrehajtási cselekmények ellátása során a 3. § (1) bekezdés";
   "                       a)–e) pontjában szereplő adatokat,";
   "                  f) a választójoggal nem rendelkező polgárok nyilvántartását vezető szerv a 3. § (1) bekezdés a), c) és";
   "                       g) pontjában szereplő adatokat,";
   "                  g) a gyámhatóság";
   "                       ga) a gondnokok felügyeletével kapcsolatos feladata ellátása során a 3. § (1) bekezdés a)–e) és";
   "                              g) pontjában szereplő adatokat,";
   "                       gb) a gondnokság alá helyezési per megindítása, a gondnokság felülvizsgálata, a választójogból";
   "                              való kizárás vagy a választójogból való kizárás megszüntetése iránti per megindítása miatt a 3. §";
   "                              (1) bekezdésében szereplő adatokat,";
   "";
   "                  h) az anyakönyvvezető";
   "                       ha) a házasságkötéssel kapcsolatos feladatai ellátása céljából a 3. § (1) bekezdés a)–d) pontjában";
   "                              szereplő adatokat,";
   "                       hb) a családi jogállás rendezésével kapcsolatos feladatai ellátása céljából a 3. § (1) bekezdés";
   "                              a)–e) pontjában szereplő adatokat,";
   "                  i) a járási hivatal szervezeti egységeként működő okmányiroda és a Központi Okmányiroda a közúti közlekedési";
   "                       igazgatási, illetve a személyi okmány ügyintézési eljárásokban a 3. § (1) bekezdés a)–e) pontjában szereplő";
   "                       adatokat.";
   ""]%string)
  = Ok (mkActS (mkAct 2345 13) (lit "A tesztelésről") (lit "") (mkDate 2345 6 7) [] [(ChArticle (mkArticle (mkArt None (mkNum 1 None)) None [(mkSae (Some (mkNum 1 None)) (BText (lit "A bíróság polgári peres és nemperes eljárás vagy büntetőeljárás lefolytatása céljából a gondnokoltak nyilvántartásában kezelt adatok teljes körét közvetlen adathozzáféréssel (a továbbiakban: közvetlen hozzáférés) jogosult megismerni és kezelni.")) si_default None); (mkSae (Some (mkNum 2 None)) (BChildren (lit "A gondnokoltak nyilvántartásában az érintettre vonatkozóan szereplő alábbi adatokat a cselekvőképesség fennállásának vizsgálata céljából konkrét ügyben közvetlen hozzáféréssel jogosult megismerni és kezelni:") (PcAlpha [(mkSae (Latin 97) (BText (lit "az ügyészség és a nyomozó hatóság a büntetőeljárás lefolytatása céljából, valamint a büntetés-végrehajtási szervezet és a rendőrség a fogvatartott gondnokának értesítése céljából a 3. § (1) bekezdés a)–f) pontjában szereplő adatokat,")) si_default None); (mkSae (Latin 98) (BText (lit "a rendőrség a fegyverengedély-ügyi és a személy- és vagyonvédelmi, valamint magánnyomozói tevékenység végzésével összefüggő hatósági engedélyezési feladatok ellátása céljából a 3. § (1) bekezdés a)–f) pontjában szereplő adatokat,")) si_default None); (mkSae (Latin 99) (BText (lit "az ügyészség a gondnokság alá helyezés, annak megszüntetése vagy módosítása, a választójogból való kizárás vagy a választójogból való kizárás megszüntetése iránti per megindításával kapcsolatos feladatai ellátása során a 3. § (1) bekezdésében szereplő adatokat,")) si_default None); (mkSae (Latin 100) (BText (lit "a közjegyző polgári nemperes eljárás lefolytatása céljából a 3. § (1) bekezdés a)–e) pontjában szereplő adatokat,")) si_default None); (mkSae (Latin 101) (BText (lit "az önálló bírósági végrehajtó a bírósági végrehajtási cselekmények ellátása során a 3. § (1) bekezdés a)–e) pontjában szereplő adatokat,")) si_default None); (mkSae (Latin 102) (BText (lit "a választójoggal nem rendelkező polgárok nyilvántartását vezető szerv a 3. § (1) bekezdés a), c) és g) pontjában szereplő adatokat,")) si_default None); (mkSae (Latin 103) (BChildren (lit "a gyámhatóság") (AcAlpha [(mkSae (mkPre (Some (Latin 103)) (Latin 97)) (BText (lit "a gondnokok felügyeletével kapcsolatos feladata ellátása során a 3. § (1) bekezdés a)–e) és g) pontjában szereplő adatokat,")) si_default None); (mkSae (mkPre (Some (Latin 103)) (Latin 98)) (BText (lit "a gondnokság alá helyezési per megindítása, a gondnokság felülvizsgálata, a választójogból való kizárás vagy a választójogból való kizárás megszüntetése iránti per megindítása miatt a 3. § (1) bekezdésében szereplő adatokat,")) si_default None)]) None) si_default None); (mkSae (Latin 104) (BChildren (lit "az anyakönyvvezető") (AcAlpha [(mkSae (mkPre (Some (Latin 104)) (Latin 97)) (BText (lit "a házasságkötéssel kapcsolatos feladatai ellátása céljából a 3. § (1) bekezdés a)–d) pontjában szereplő adatokat,")) si_default None); (mkSae (mkPre (Some (Latin 104)) (Latin 98)) (BText (lit "a családi jogállás rendezésével kapcsolatos feladatai ellátása céljából a 3. § (1) bekezdés a)–e) pontjában szereplő adatokat,")) si_default None)]) None) si_default None); (mkSae (Latin 105) (BText (lit "a járási hivatal szervezeti egységeként működő okmányiroda és a Központi Okmányiroda a közúti közlekedési igazgatási, illetve a személyi okmány ügyintézési eljárásokban a 3. § (1) bekezdés a)–e) pontjában szereplő adatokat.")) si_default None)]) None) si_default None)] None))]).
Proof. vm_compute. reflexivity. Qed.
Example struct_subpoints_mini : test_act (map lit
  ["<BOLD>Alcim 1";
   "1. § Ajj, mehet.";
   "";
   "<BOLD>Alcim 2";
   "2. § A szamozott pontok azert meg mukodnek:";
   "    1. Pont";
   "    2. Pont";
   "";
   "3. § Sot, nem kell felni a";
   "<BOLD> felkover dolgoktol sem.";
   ""]%string)
  = Ok (mkActS (mkAct 2345 13) (lit "A tesztelésről") (lit "") (mkDate 2345 6 7) [] [(ChSubtitle (mkSub None (lit "Alcim 1") None)); (ChArticle (mkArticle (mkArt None (mkNum 1 None)) None [(mkSae None (BText (lit "Ajj, mehet.")) si_default None)] None)); (ChSubtitle (mkSub None (lit "Alcim 2") None)); (ChArticle (mkArticle (mkArt None (mkNum 2 None)) None [(mkSae None (BChildren (lit "A szamozott pontok azert meg mukodnek:") (PcNum [(mkSae (mkNum 1 None) (BText (lit "Pont")) si_default None); (mkSae (mkNum 2 None) (BText (lit "Pont")) si_default None)]) None) si_default None)] None)); (ChArticle (mkArticle (mkArt None (mkNum 3 None)) None [(mkSae None (BText (lit "Sot, nem kell felni a felkover dolgoktol sem.")) si_default None)] None))]).
Proof. vm_compute. reflexivity. Qed.
