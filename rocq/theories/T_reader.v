(* T_reader.v: property theorems about the reader of event files (C88-C92). *)
From Coq Require Import String Ascii.
From Verif Require Import Np S_gti S_seg M_gti M_seg M_utils M_reader S_reader P_gti_cross P_reader P_reader2 P_reader3 P_reader4.
Open Scope Q_scope.

(* ---------- C88: rows of a time range ---------- *)
Theorem C88_range : forall A (rd : reader A) qs,
  in_order (rd_rows rd) -> rd_rows rd <> [] -> rd_gti rd <> [] ->
  (forall a b, In (a, b) qs -> a < b /\ reaches (rd_rows rd) (rd_gti rd) a b) ->
  get_idx_all rd None qs =
    Ok (map (fun q => (Z.of_nat (rows_before (rd_rows rd) (fst q)), Z.of_nat (rows_before (rd_rows rd) (snd q)) - 1)%Z) qs).
Proof. exact @range_main. Qed.
Print Assumptions C88_range.
Theorem C88_outside_error : forall A (rd : reader A) qs a b qs',
  in_order (rd_rows rd) -> rd_rows rd <> [] -> rd_gti rd <> [] ->
  (forall a b, In (a, b) qs -> a < b /\ reaches (rd_rows rd) (rd_gti rd) a b) ->
  a < b -> ~ reaches (rd_rows rd) (rd_gti rd) a b -> get_idx_all rd None (qs ++ (a, b) :: qs') = Err AssertionError.
Proof. exact @range_outside. Qed.
Print Assumptions C88_outside_error.
Theorem C88_rows : forall A (rows : list (Q * A)) a b,
  in_order rows -> a <= b ->
  slice rows (rows_before rows a) (rows_before rows b) = rows_in rows a b.
Proof. exact @rows_slice. Qed.
Print Assumptions C88_rows.

Example C88_nonvacuous : in_order (rd_rows (ex_reader 0)) /\
  (forall a b, In (a, b) [(3, 6); (0, 35); (34, 35)] -> a < b /\ reaches ex_rows [(0, 10); (20, 30)] a b) /\
  get_idx_all (ex_reader 0) None [(3, 6); (0, 35); (34, 35)] = Ok [(3, 5); (0, 13); (14, 13)]%Z /\
  ~ reaches ex_rows [(0, 10); (20, 30)] 3 36.
Proof. split; [apply ex_order|exact ex_ranges]. Qed.

(* ---------- C89: pieces of a file ---------- *)
Theorem C89_pieces : forall A (rd : reader A) g l,
  in_order (rd_rows rd) -> rd_rows rd <> [] -> rd_gti rd <> [] ->
  (forall g' a b, In g' (g :: l) -> spans g' a b -> a < b /\ reaches (rd_rows rd) (rd_gti rd) a b) ->
  ~ close_lists g (rd_gti rd) ->
  exists pieces, apply_gti_lists rd None (g :: l) = Ok pieces /\
    Forall2 (piece_of (rd_rows rd) (rd_zero rd)) (filter nonempty (g :: l)) pieces.
Proof. exact @pieces_main. Qed.
Print Assumptions C89_pieces.
Theorem C89_whole : forall A (rd : reader A) cache g l,
  close_lists g (rd_gti rd) ->
  apply_gti_lists rd cache (g :: l) = Ok [(moved (rd_zero rd) (rd_rows rd), moved_gti (rd_zero rd) (rd_gti rd))].
Proof. exact @same_case. Qed.
Print Assumptions C89_whole.
Theorem C89_by_number_partial : forall A (rd : reader A) ns M,
  in_order (rd_rows rd) -> rd_rows rd <> [] -> good (rd_gti rd) -> (0 < ns)%Z ->
  (forall a b, In (a, b) (rd_gti rd) -> b - a <= M) ->
  let n := rint (inject_Z (Z.of_nat (length (rd_rows rd))) / inject_Z ns) in
  exists pieces ev, split_by_number rd None ns = Ok pieces /\
    concat (map fst pieces) = moved (rd_zero rd) ev /\ good_rows (rd_gti rd) ev = good_rows (rd_gti rd) (rd_rows rd) /\
    (rd_zero rd == 0 -> forall t, covered (concat (map snd pieces)) t <-> covered (rd_gti rd) t) /\
    ((1 <= n)%Z -> forall p, In p pieces ->
       exposure (snd p) <= (3 # 2) * (exposure (rd_gti rd) / inject_Z n) + M + (2 # 1000) * inject_Z (Z.of_nat (length (rd_gti rd)))).
Proof. exact @split_main. Qed.
Print Assumptions C89_by_number_partial.
Theorem C89_zero_samples_error : forall A (rd : reader A) cache,
  split_by_number rd cache 0 = Err ZeroDivisionError.
Proof. exact @split_zero. Qed.
Print Assumptions C89_zero_samples_error.
Theorem C89_clock_refuted : 
  exists (rd : reader nat) pieces p, in_order (rd_rows rd) /\ good (rd_gti rd) /\
  (forall r, In r (rd_rows rd) -> covered (rd_gti rd) (fst r)) /\
  split_by_number rd None 2 = Ok pieces /\ In p pieces /\ fst p <> [] /\ (forall r, In r (fst p) -> ~ covered (snd p) (fst r)).
Proof. exact zero_refuted. Qed.
Print Assumptions C89_clock_refuted.
Theorem C89_last_event_refuted : 
  exists (rd : reader nat) pieces r, in_order (rd_rows rd) /\ good (rd_gti rd) /\ rd_zero rd = 0 /\
  In r (rd_rows rd) /\ covered_closed (rd_gti rd) (fst r) /\ split_by_number rd None 2 = Ok pieces /\
  (forall p q, In p pieces -> In q (fst p) -> snd q <> snd r) /\
  (exists p q, split_by_number rd None 4 = Ok [p] /\ In q (fst p) /\ snd q = snd r).
Proof. exact end_refuted. Qed.
Print Assumptions C89_last_event_refuted.

Example C89_nonvacuous : in_order (rd_rows (ex_reader 0)) /\ good (rd_gti (ex_reader 0)) /\
  split_by_number (ex_reader 0) None 4 =
  Ok [(combine [0; 1; 2; 3; 4] (seq 0 5), [(0 # 4, 20 # 4)]); (combine [5; 6; 7; 8] (seq 5 4), [(20 # 4, 10)]);
      ([(21, 10%nat)], [(80 # 4, 100 # 4)]); (combine [25; 29] (seq 11 2), [(100 # 4, 30)])].
Proof. split; [apply ex_order|]. split; [exact ex_good|exact ex_split]. Qed.

(* ---------- C90: filtering at time intervals ---------- *)
Theorem C90_filter_partial : forall A srt (rd : reader A) a b ints,
  sorts_by t_end srt -> in_order (rd_rows rd) -> rd_rows rd <> [] -> good (rd_gti rd) ->
  (forall c d, In (c, d) ((a, b) :: ints) -> c < d /\ no_touching (rd_gti rd) [(c, d)]) -> shorter (rd_gti rd) a b ->
  exists lists pieces, filter_at srt rd None ((a, b) :: ints) true = Ok pieces /\
    Forall2 (fun iv r => good_time_in (rd_gti rd) (fst iv) (snd iv) r) ((a, b) :: ints) lists /\
    Forall2 (has_good_events (rd_rows rd) (rd_zero rd)) (filter nonempty lists) pieces.
Proof. exact @filter_at_main. Qed.
Print Assumptions C90_filter_partial.
Theorem C90_first_interval_refuted : 
  exists ints pieces,
  (forall c d, In (c, d) ints -> c < d /\ no_touching [(0, 10); (20, 30)] [(c, d)]) /\ length ints = 3%nat /\
  filter_at (isort_by t_end) (ex_reader 0) None ints true = Ok pieces /\ length pieces = 1%nat /\
  (exists p, In p pieces /\ fst p = moved 0 ex_rows /\ exists r, In r ex_rows /\ ~ covered_closed [(0, 10); (20, 30)] (fst r)).
Proof. exact first_refuted. Qed.
Print Assumptions C90_first_interval_refuted.
Theorem C90_gap_refuted : 
  exists p, filter_at (isort_by t_end) (ex_reader 0) None [(10, 20)] true = Ok [p] /\
  covered (snd p) 15 /\ ~ covered [(0, 10); (20, 30)] 15 /\ (exists r, In r (fst p) /\ ~ covered [(0, 10); (20, 30)] (fst r)).
Proof. exact gap_refuted. Qed.
Print Assumptions C90_gap_refuted.

Example C90_nonvacuous : sorts_by t_end (isort_by t_end) /\ in_order (rd_rows (ex_reader 0)) /\ good (rd_gti (ex_reader 0)) /\
  (forall c d, In (c, d) [(2, 22); (8, 12); (12, 18)] -> c < d /\ no_touching [(0, 10); (20, 30)] [(c, d)]) /\
  shorter [(0, 10); (20, 30)] 2 22 /\
  filter_at (isort_by t_end) (ex_reader 0) None [(2, 22); (8, 12); (12, 18)] true =
    Ok [(combine [2; 3; 4; 5; 6; 7; 8; 10; 21] (seq 2 9), [(2, 10); (20, 22)]); ([(8, 8%nat)], [(8, 10)])].
Proof. split; [apply isort_sorts|]. split; [apply ex_order|]. split; [exact ex_good|exact ex_pieces]. Qed.

(* ---------- C91: header keywords in one or two parts ---------- *)
Theorem C91_whole : forall hdr k v,
  NoDup (map fst hdr) -> In (k, v) hdr -> keyword_read hdr k = Some v.
Proof. exact key_whole. Qed.
Print Assumptions C91_whole.
Theorem C91_two_parts : forall hdr k root vi vf,
  NoDup (map fst hdr) -> ~ In k (map fst hdr) ->
  root = (if Nat.eqb (String.length k) 8 then substring 0 7 k else k) ->
  In ((root ++ "I")%string, vi) hdr -> In ((root ++ "F")%string, vf) hdr -> keyword_read hdr k = Some (vi + vf).
Proof. exact key_split. Qed.
Print Assumptions C91_two_parts.
Theorem C91_missing : forall hdr k root,
  NoDup (map fst hdr) -> ~ In k (map fst hdr) ->
  root = (if Nat.eqb (String.length k) 8 then substring 0 7 k else k) ->
  ~ In (root ++ "I")%string (map fst hdr) \/ ~ In (root ++ "F")%string (map fst hdr) -> keyword_read hdr k = None.
Proof. exact key_none. Qed.
Print Assumptions C91_missing.
Theorem C91_reference_refuted : 
  exists hdr v vi vf, NoDup (map fst hdr) /\ In ("MJDREFI"%string, vi) hdr /\ In ("MJDREFF"%string, vf) hdr /\
  keyword_read hdr "MJDREF" = Some v /\ ~ v == vi + vf.
Proof. exact mjdref_refuted. Qed.
Print Assumptions C91_reference_refuted.

Example C91_nonvacuous : 
  keyword_read [("MJDREFI"%string, 55197); ("MJDREFF"%string, 766 # 1000000)] "MJDREF" = Some (55197 + (766 # 1000000)) /\
  keyword_read [("TIMEPIXI"%string, 2); ("TIMEPIXF"%string, 1 # 2)] "TIMEPIXR" = Some (2 + (1 # 2)) /\
  keyword_read [("TIMEZERI"%string, 2)] "TIMEZERO" = None.
Proof. repeat split. Qed.

(* ---------- C92: energies of the channels ---------- *)
Theorem C92_energies : forall pis rmf,
  length (pi_to_energy pis rmf) = length pis /\
  forall i pi, nth_error pis i = Some pi ->
    (forall pre lo hi post, rmf = pre ++ (pi, (lo, hi)) :: post -> ~ In pi (map fst post) ->
       nth_error (pi_to_energy pis rmf) i = Some ((lo + hi) / 2)) /\
    (~ In pi (map fst rmf) -> nth_error (pi_to_energy pis rmf) i = Some 0).
Proof. exact energies. Qed.
Print Assumptions C92_energies.

Example C92_nonvacuous : pi_to_energy [3; 5; 4]%Z [(3%Z, (0, 1)); (4%Z, (1, 2))] = [(0 + 1) / 2; 0; (1 + 2) / 2].
Proof. reflexivity. Qed.

