(** C89: issues in the cache are used without asking the server, and never mixed up. *)
From Verif Require Import ModelFetch ProofFetch.
Local Open Scope list_scope.

(** ** C89 *)
(** An issue in the cache is returned as it is there: no request, no change. *)
Theorem C89_cached : forall sv w dir d i b, d (cache_path dir i) = Some b -> download sv w dir d i = (d, [], Ok b).
Proof. exact cached. Qed.
Print Assumptions C89_cached.
(** Otherwise there is one request, and the answer is returned and stored; *)
Theorem C89_fetched : forall sv w dir d i b, d (cache_path dir i) = None -> sv (mk_url i) = Ok b -> w (cache_path dir i) b = None ->
  exists d', download sv w dir d i = (d', [mk_url i], Ok b) /\ d' (cache_path dir i) = Some b.
Proof. exact fetched. Qed.
Print Assumptions C89_fetched.
(** when the request fails, nothing is stored. *)
Theorem C89_unreachable : forall sv w dir d i, d (cache_path dir i) = None -> sv (mk_url i) = Err -> download sv w dir d i = (d, [mk_url i], Err).
Proof. exact unreachable. Qed.
Print Assumptions C89_unreachable.
(** There is exactly one request for an issue not in the cache, whatever comes of it. *)
Theorem C89_request : forall sv w dir d i d' us o, download sv w dir d i = (d', us, o) -> d (cache_path dir i) = None -> us = [mk_url i].
Proof. exact (fun sv w dir d i d' us o E => proj1 (proj2 (proj2 (proj2 (kept sv w dir d i d' us o E))))). Qed.
Print Assumptions C89_request.
(** What is returned was in the cache or is the answer of the server. *)
Theorem C89_source : forall sv w dir d i d' us b, download sv w dir d i = (d', us, Ok b) ->
  d (cache_path dir i) = Some b \/ d (cache_path dir i) = None /\ sv (mk_url i) = Ok b.
Proof. exact (fun sv w dir d i d' us b E => proj2 (proj2 (proj2 (proj2 (kept sv w dir d i d' us (Ok b) E)))) b eq_refl). Qed.
Print Assumptions C89_source.
(** Asked for again, it is the same without a request, whatever server and disk there are then. *)
Theorem C89_twice : forall sv w sv2 w2 dir d i d' us b, download sv w dir d i = (d', us, Ok b) -> download sv2 w2 dir d' i = (d', [], Ok b).
Proof. exact twice_any. Qed.
Print Assumptions C89_twice.
(** All other files stay, so all other issues, failed or not; *)
Theorem C89_others : forall sv w dir d i d' us o, download sv w dir d i = (d', us, o) ->
  (forall q, q <> cache_path dir i -> d' q = d q) /\ (forall j, j <> i -> d' (cache_path dir j) = d (cache_path dir j)).
Proof. exact (fun sv w dir d i d' us o E => conj (proj1 (kept sv w dir d i d' us o E)) (fun j => others sv w dir d i d' us o j E)). Qed.
Print Assumptions C89_others.
(** and no download changes what comes of another issue. *)
Theorem C89_independent : forall sv w dir d i d' us o j d1 u1 o1 d2 u2 o2, download sv w dir d i = (d', us, o) -> j <> i ->
  download sv w dir d j = (d1, u1, o1) -> download sv w dir d' j = (d2, u2, o2) -> u1 = u2 /\ o1 = o2.
Proof. exact others_result. Qed.
Print Assumptions C89_independent.
(** In a sequence every issue returned is in the cache at the end, *)
Theorem C89_held : forall sv w dir l d d' us os, download_all sv w dir d l = (d', us, os) ->
  Forall2 (fun i o => forall b, o = Ok b -> d' (cache_path dir i) = Some b) l os.
Proof. exact all_held. Qed.
Print Assumptions C89_held.
(** and if all are returned, the requests are one for every issue that was not in the cache. *)
Theorem C89_asked : forall sv w dir l d d' us os, download_all sv w dir d l = (d', us, os) -> Forall (fun o => exists b, o = Ok b) os ->
  exists asked, us = map mk_url asked /\ NoDup asked /\ (forall i, In i asked <-> In i l /\ d (cache_path dir i) = None).
Proof. exact all_asked. Qed.
Print Assumptions C89_asked.
(** When files can be written, what comes of an issue depends only on it, the server and the cache at the start, however many were downloaded before: the pages are
    a function of the issue, as the model of the program has it (C70, C87). *)
Theorem C89_function : forall sv w dir l, (forall p b, w p b = None) -> forall d d' us os, download_all sv w dir d l = (d', us, os) ->
  os = map (fun i => match d (cache_path dir i) with Some b => Ok b | None => sv (mk_url i) end) l.
Proof. exact all_given. Qed.
Print Assumptions C89_function.
(** The file of an issue is in the directory of its year, named after its number. *)
Theorem C89_place : forall d i, let f := lit "MK/" ++ show_Z (mk_year i) ++ lit "/" ++ show_Z (mk_issue_no i) ++ lit ".pdf" in
  cache_path (d ++ lit "/") i = d ++ lit "/" ++ f /\ cache_path [] i = f /\ (d <> [] -> (forall r, d <> r ++ lit "/") -> cache_path d i = d ++ lit "/" ++ f).
Proof. exact place. Qed.
Print Assumptions C89_place.
(** The file is written in place. So it is false that an issue returned from the cache is a whole answer of the server: after a write that failed half way the part
    is returned as the issue from then on, without an error. *)
Theorem C89_whole_refuted : exists sv w dir d i d1 us1 rest b, d (cache_path dir i) = None /\ download sv w dir d i = (d1, us1, Err) /\ sv (mk_url i) = Ok b /\ rest <> b /\
  download sv w dir d1 i = (d1, [], Ok rest).
Proof. exact broken. Qed.
Print Assumptions C89_whole_refuted.

(** Three issues, one of them twice and one in the cache *)
Definition good_disk : writing := fun _ _ => None.
Definition echo_server : server := fun u => if str_eqb u (mk_url (mkIssue 2013 7)) then Err else Ok u.
Definition some_cached : disk := fun q => if str_eqb q (lit "./cache/MK/2012/31.pdf") then Some (lit "old") else None.
Example C89_run : exists d', download_all echo_server good_disk (lit "./cache") some_cached [mkIssue 2012 31; mkIssue 2020 1; mkIssue 2020 1] =
  (d', [mk_url (mkIssue 2020 1)], [Ok (lit "old"); Ok (mk_url (mkIssue 2020 1)); Ok (mk_url (mkIssue 2020 1))]) /\
  d' (lit "./cache/MK/2020/1.pdf") = Some (lit "http://www.kozlonyok.hu/nkonline/MKPDF/hiteles/MK20001.pdf").
Proof. eexists. split; vm_compute; reflexivity. Qed.
Example C89_failed : exists d', download echo_server good_disk (lit "./cache") some_cached (mkIssue 2013 7) = (d', [mk_url (mkIssue 2013 7)], Err) /\
  d' (lit "./cache/MK/2013/7.pdf") = None.
Proof. eexists. split; vm_compute; reflexivity. Qed.
