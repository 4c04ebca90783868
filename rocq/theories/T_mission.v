(* T_mission.v: property theorems about mission support (C113, C114, C115, C116). *)
From Coq Require Import String Ascii.
From Verif Require Import Np Lib M_utils M_base M_io M_mission S_mission S_mission2 P_mission P_mission2 P_mission3 P_mission4 P_mission5 P_mission6.
From Coq Require Import ZArith QArith List Bool Lia.
Import ListNotations.
Open Scope Z_scope.

(* ---------- C113: notation of channels ---------- *)
Theorem C113_group : forall sep g,
  ~ is_digit sep -> group_ok g -> split_chan_spec (text sep g) sep = Ok (meaning g).
Proof. exact chan_spec. Qed.
Print Assumptions C113_group.
Theorem C113_groups : forall gs,
  gs <> [] -> Forall group_ok gs -> split_C_string (join "," (map (text "~") gs)) "~" = Ok (map meaning gs).
Proof. exact groups_ok. Qed.
Print Assumptions C113_groups.
Theorem C113_range : forall a b,
  number a -> number b ->
  exists l, split_C_string (a ++ [":"%char] ++ b) "~" = Ok l /\ length l = Z.to_nat (decimal b + 1 - decimal a) /\
    forall i c, nth_error l i = Some c -> c = (decimal a + Z.of_nat i, decimal a + Z.of_nat i).
Proof. exact range_ok. Qed.
Print Assumptions C113_range.
Theorem C113_minus : forall s,
  number s -> int_of ("-"%char :: s) = Ok (- decimal s).
Proof. exact int_minus. Qed.
Print Assumptions C113_minus.
Theorem C113_blank_error : forall s,
  Forall is_blank s -> int_of s = Err ValueError.
Proof. exact int_blank. Qed.
Print Assumptions C113_blank_error.
Theorem C113_decode : forall before after gs r,
  before <> [] -> Forall unbroken before -> Forall begins_with_capital (tl before) -> (forall f, In f before -> forall q, f <> "C"%char :: q) ->
  gs <> [] -> Forall group_ok gs -> ~ In "]"%char r -> unbroken (c_field (join "," (map (text "~") gs)) r) ->
  Forall unbroken after -> Forall begins_with_capital after ->
  decode_energy_channels (join "," (before ++ [c_field (join "," (map (text "~") gs)) r] ++ after)) = Ok (map meaning gs).
Proof. exact decode_ok. Qed.
Print Assumptions C113_decode.
Theorem C113_none_error : forall fs,
  fs <> [] -> Forall unbroken fs -> Forall begins_with_capital (tl fs) -> (forall f, In f fs -> forall q, f <> "C"%char :: q) ->
  decode_energy_channels (join "," fs) = Err ValueError.
Proof. exact decode_none. Qed.
Print Assumptions C113_none_error.
Theorem C113_open_error : forall before after r,
  before <> [] -> Forall unbroken before -> Forall begins_with_capital (tl before) -> (forall f, In f before -> forall q, f <> "C"%char :: q) ->
  ~ In "]"%char r -> unbroken ("C"%char :: r) -> Forall unbroken after -> Forall begins_with_capital after ->
  decode_energy_channels (join "," (before ++ ["C"%char :: r] ++ after)) = Err AttributeError.
Proof. exact decode_open. Qed.
Print Assumptions C113_open_error.
Theorem C113_pha : forall tevtb2 pha out chans,
  decode_energy_channels tevtb2 = Ok chans -> rxte_pha tevtb2 pha = Ok out ->
  length out = length pha /\
  forall i c, nth_error pha i = Some (Z.of_nat c) -> exists a b, nth_error chans c = Some (a, b) /\ nth_error out i = Some (Z.quot (a + b) 2).
Proof. exact pha_ok. Qed.
Print Assumptions C113_pha.
Theorem C113_outside_error : forall tevtb2 chans c,
  decode_energy_channels tevtb2 = Ok chans -> (length chans <= c)%nat -> rxte_pha tevtb2 [Z.of_nat c] = Err IndexError.
Proof. exact pha_outside. Qed.
Print Assumptions C113_outside_error.
Theorem C113_between : forall a b,
  0 <= a -> a <= b -> a <= Z.quot (a + b) 2 <= b.
Proof. exact mean_between. Qed.
Print Assumptions C113_between.
Theorem C113_first_refuted : 
  exists r, rxte_pha % "(C[0~4]{1},M[1]{1})" [0] = r /\ r = Err ValueError /\ split_C_string % "0~4" "~" = Ok [(0, 4)].
Proof. exact first_refuted. Qed.
Print Assumptions C113_first_refuted.
Theorem C113_mixed_refuted : 
  exists s, split_C_string s "~" = Err ValueError /\ s = join "," [% "0:3"; % "7"] /\ split_C_string % "0:3" "~" = Ok [(0, 0); (1, 1); (2, 2); (3, 3)] /\ split_C_string % "7" "~" = Ok [(7, 7)].
Proof. exact mixed_refuted. Qed.
Print Assumptions C113_mixed_refuted.
Theorem C113_third_refuted : 
  exists s, split_chan_spec s "~" = Ok (10, 13) /\ s = % "10~13~15".
Proof. exact third_refuted. Qed.
Print Assumptions C113_third_refuted.
Theorem C113_twice_refuted : 
  exists tevtb2 pha once twice, rxte_pha tevtb2 pha = Ok once /\ rxte_pha tevtb2 once = Ok twice /\ once <> twice.
Proof. exact twice_refuted. Qed.
Print Assumptions C113_twice_refuted.

Example C113_nonvacuous : group_ok (Short % "2" % "50" % "55") /\ meaning (Short % "2" % "50" % "55") = (250, 255) /\
  decode_energy_channels % "(M[1]{1},C[0~4,5,250~5]{8},T[0.0;0.5]{4})" = Ok [(0, 4); (5, 5); (250, 255)].
Proof.
  split; [cbn [group_ok]; repeat split; try discriminate; try reflexivity; repeat constructor; unfold is_digit; cbn; lia|]. split; vm_compute; reflexivity.
Qed.

(* ---------- C114: energies of channels ---------- *)
Theorem C114_energy : forall i a b epoch c d,
  (i < 5)%nat -> nth_error edge_epochs i = Some a -> nth_error edge_epochs (S i) = Some b -> (a < epoch)%Q -> (epoch <= b)%Q -> (c < 256)%nat ->
  exists e text values lo hi, pca_energy epoch (Z.of_nat c) d = Ok e /\ In (text, values) caltable /\ split_chan_spec text "-" = Ok (lo, hi) /\ lo <= Z.of_nat c <= hi /\
    (e == inject_Z (nth (column_used i d) values 0%Z) / 100)%Q /\
    forall text' values' lo' hi', In (text', values') caltable -> split_chan_spec text' "-" = Ok (lo', hi') -> lo' <= Z.of_nat c <= hi' -> nth (column_used i d) values' 0 = nth (column_used i d) values 0.
Proof. exact energy_at. Qed.
Print Assumptions C114_energy.
Theorem C114_monotone : forall i a b epoch c c' d e e',
  (i < 5)%nat -> nth_error edge_epochs i = Some a -> nth_error edge_epochs (S i) = Some b -> (a < epoch)%Q -> (epoch <= b)%Q ->
  (c <= c')%nat -> pca_energy epoch (Z.of_nat c) d = Ok e -> pca_energy epoch (Z.of_nat c') d = Ok e' -> (e <= e')%Q.
Proof. exact energy_mono. Qed.
Print Assumptions C114_monotone.
Theorem C114_detector : forall i a b epoch c d d',
  (i < 4)%nat -> nth_error edge_epochs i = Some a -> nth_error edge_epochs (S i) = Some b -> (a < epoch)%Q -> (epoch <= b)%Q -> pca_energy epoch c d = pca_energy epoch c d'.
Proof. exact energy_detector. Qed.
Print Assumptions C114_detector.
Theorem C114_group : forall i a b epoch tevtb2 chans pha out j c d,
  (i < 5)%nat -> nth_error edge_epochs i = Some a -> nth_error edge_epochs (S i) = Some b -> (a < epoch)%Q -> (epoch <= b)%Q ->
  decode_energy_channels tevtb2 = Ok chans -> (forall lo hi, In (lo, hi) chans -> 0 <= lo <= hi /\ hi < 256) -> rxte_pha tevtb2 pha = Ok out -> nth_error pha j = Some (Z.of_nat c) ->
  exists lo hi m e elo ehi, nth_error chans c = Some (lo, hi) /\ nth_error out j = Some m /\ pca_energy epoch m d = Ok e /\ pca_energy epoch lo d = Ok elo /\ pca_energy epoch hi d = Ok ehi /\ (elo <= e <= ehi)%Q.
Proof. exact group_energy. Qed.
Print Assumptions C114_group.
Theorem C114_outside_error : forall i a b epoch c d,
  (i < 5)%nat -> nth_error edge_epochs i = Some a -> nth_error edge_epochs (S i) = Some b -> (a < epoch)%Q -> (epoch <= b)%Q ->
  (256 <= c)%nat -> pca_energy epoch (Z.of_nat c) d = Err IndexError.
Proof. exact energy_outside. Qed.
Print Assumptions C114_outside_error.
Theorem C114_epoch_error : forall epoch c d,
  (epoch <= 72116640 # 1440)%Q \/ (80540640 # 1440 < epoch)%Q -> pca_energy epoch c d = Err KeyError.
Proof. exact epoch_outside. Qed.
Print Assumptions C114_epoch_error.
Theorem C114_negative_refuted : 
  exists epoch c e, c < 0 /\ pca_energy epoch c 0 = Ok e.
Proof. exact negative_refuted. Qed.
Print Assumptions C114_negative_refuted.
Theorem C114_rough : forall pi mission m slope offset,
  In (m, (slope, offset)) rough_table -> same_case mission m ->
  exists e, rough_calibration pi mission = Ok e /\ (e == slope * pi + offset)%Q.
Proof. exact rough_values. Qed.
Print Assumptions C114_rough.
Theorem C114_rough_agree : forall pi mission m instrument epoch d,
  In m rough_missions -> same_case mission m -> rough_conversion mission instrument epoch pi d = rough_calibration (inject_Z pi) mission.
Proof. exact rough_agree. Qed.
Print Assumptions C114_rough_agree.
Theorem C114_case : forall pi mission mission' instrument epoch c d,
  same_case mission mission' ->
  rough_calibration pi mission = rough_calibration pi mission' /\ rough_conversion mission instrument epoch c d = rough_conversion mission' instrument epoch c d.
Proof. exact rough_case. Qed.
Print Assumptions C114_case.
Theorem C114_unknown_error : forall pi mission,
  (forall m, In m rough_missions -> ~ same_case mission m) -> rough_calibration pi mission = Err ValueError.
Proof. exact rough_unknown. Qed.
Print Assumptions C114_unknown_error.
Theorem C114_unknown_conversion_error : forall mission instrument epoch c d,
  (forall m, In m (rough_missions ++ [% "axaf"; % "xte"]) -> ~ same_case mission m) -> rough_conversion mission instrument epoch c d = Err ValueError.
Proof. exact conversion_unknown. Qed.
Print Assumptions C114_unknown_conversion_error.
Theorem C114_smooth : forall i k ta va la ha tb vb lb hb tc vc lc hc,
  (k < 6)%nat ->
  nth_error caltable i = Some (ta, va) -> nth_error caltable (S i) = Some (tb, vb) -> nth_error caltable (S (S i)) = Some (tc, vc) ->
  split_chan_spec ta "-" = Ok (la, ha) -> split_chan_spec tb "-" = Ok (lb, hb) -> split_chan_spec tc "-" = Ok (lc, hc) ->
  25 * (hb - ha) <= nth k vb 0 - nth k va 0 <= 60 * (hb - ha) /\
  Z.abs ((nth k vc 0 - nth k vb 0) * (hb - ha) - (nth k vb 0 - nth k va 0) * (hc - hb)) <= 2 * (hb - ha) * (hc - hb).
Proof. exact table_smooth. Qed.
Print Assumptions C114_smooth.
Theorem C114_axaf : forall mission instrument epoch c d,
  same_case mission % "axaf" ->
  exists e, rough_conversion mission instrument epoch c d = Ok e /\ (e == (inject_Z c - 1) * (146 # 10000))%Q.
Proof. exact axaf_value. Qed.
Print Assumptions C114_axaf.
Theorem C114_axaf_refuted : 
  exists mission instrument epoch c d e, rough_conversion mission instrument epoch c d = Ok e /\ rough_calibration (inject_Z c) mission = Err ValueError.
Proof. exact axaf_refuted. Qed.
Print Assumptions C114_axaf_refuted.
Theorem C114_xte : forall mission epoch c d,
  same_case mission % "xte" ->
  rough_conversion mission None epoch c d = Err AttributeError /\
  (forall i, ~ same_case i % "pca" -> rough_conversion mission (Some i) epoch c d = Err ValueError) /\
  (forall i, same_case i % "pca" -> rough_conversion mission (Some i) epoch c d = pca_energy epoch c d).
Proof. exact xte_instrument. Qed.
Print Assumptions C114_xte.

Example C114_nonvacuous : nth_error edge_epochs 4 = Some (74414880 # 1440)%Q /\ nth_error edge_epochs 5 = Some (80540640 # 1440)%Q /\ ((74414880 # 1440) < 52000 <= (80540640 # 1440))%Q /\
  match pca_energy 52000 10 0 with Ok e => Qeq_bool e (453 # 100) | Err _ => false end = true /\
  match pca_energy 52000 10 3 with Ok e => Qeq_bool e (449 # 100) | Err _ => false end = true.
Proof. split; [reflexivity|]. split; [reflexivity|]. split; [split; [reflexivity|discriminate]|]. split; vm_compute; reflexivity. Qed.

(* ---------- C115: the mission database ---------- *)
Theorem C115_read : forall mission lines E,
  match mission with Some m => Forall (fun c => ~ is_blank c) m /\ ~ same_case m % "xmm" /\ ~ same_case m % "xte" | None => True end ->
  says mission lines E -> compatible E ->
  exists db, read_mission_info lines mission = Ok db /\ forall p t, leaf t -> (at_path db p t <-> last_given E p t).
Proof. exact database_read. Qed.
Print Assumptions C115_read.
Theorem C115_xmm : forall m lines E s,
  Forall (fun c => ~ is_blank c) m -> same_case m % "xmm" -> says (Some m) lines E -> compatible E -> last_given E [% "gti"] (Leaf s) ->
  exists db, read_mission_info lines (Some m) = Ok db /\ at_path db [% "gti"] (Leaf (s ++ % ",GTI0")) /\
    forall p t, leaf t -> p <> [% "gti"] -> (at_path db p t <-> last_given E p t).
Proof. exact xmm_read. Qed.
Print Assumptions C115_xmm.
Theorem C115_xte : forall m lines E t0,
  Forall (fun c => ~ is_blank c) m -> same_case m % "xte" -> says (Some m) lines E -> compatible E -> leaf t0 -> last_given E [% "ecol"] t0 ->
  exists db, read_mission_info lines (Some m) = Ok db /\ at_path db [% "ecol"] (Leaf % "PHA") /\ at_path db [% "ccol"] (Leaf % "PCUID") /\
    forall p t, leaf t -> p <> [] -> ~ begins [% "ecol"] p -> ~ begins [% "ccol"] p -> (at_path db p t <-> last_given E p t).
Proof. exact xte_read. Qed.
Print Assumptions C115_xte.
Theorem C115_xte_plain : forall m lines E,
  Forall (fun c => ~ is_blank c) m -> same_case m % "xte" -> says (Some m) lines E -> compatible E -> (forall p, In p (map fst E) -> ~ begins [% "ecol"] p) ->
  exists db, read_mission_info lines (Some m) = Ok db /\ forall p t, leaf t -> (at_path db p t <-> last_given E p t).
Proof. exact xte_plain. Qed.
Print Assumptions C115_xte_plain.
Theorem C115_xmm_plain : forall m lines E,
  Forall (fun c => ~ is_blank c) m -> same_case m % "xmm" -> says (Some m) lines E -> compatible E -> (forall p, In p (map fst E) -> ~ begins [% "gti"] p) ->
  exists db, read_mission_info lines (Some m) = Ok db /\ forall p t, leaf t -> (at_path db p t <-> last_given E p t).
Proof. exact xmm_plain. Qed.
Print Assumptions C115_xmm_plain.
Theorem C115_xmm_group_error : forall m lines E k q t,
  Forall (fun c => ~ is_blank c) m -> same_case m % "xmm" -> says (Some m) lines E -> compatible E -> leaf t -> last_given E (% "gti" :: k :: q) t ->
  read_mission_info lines (Some m) = Err TypeError.
Proof. exact xmm_group. Qed.
Print Assumptions C115_xmm_group_error.
Theorem C115_no_colon_error : forall mission lines E line name ws after,
  match mission with Some m => Forall (fun c => ~ is_blank c) m /\ about m line | None => True end -> says mission lines E -> compatible E ->
  spaced line (name :: ws) -> (forall r, name <> "!"%char :: r) -> ~ In ":"%char name -> read_mission_info (lines ++ line :: after) mission = Err IndexError.
Proof. exact no_colon. Qed.
Print Assumptions C115_no_colon_error.
Theorem C115_conflict_error : forall mission lines E line path t q u k r after,
  match mission with Some m => Forall (fun c => ~ is_blank c) m /\ about m line | None => True end -> says mission lines E -> compatible E ->
  gives line path t -> leaf u -> last_given E q u -> (match mission with Some _ => tl path | None => path end) = q ++ k :: r -> read_mission_info (lines ++ line :: after) mission = Err TypeError.
Proof. exact conflict. Qed.
Print Assumptions C115_conflict_error.
Theorem C115_prefix_refuted : 
  exists lines db, read_mission_info lines (Some % "astro-e") = Ok db /\ lines = [% "ASTRO-E2:time TIME"] /\ at_path db [% "time"] (Leaf % "TIME").
Proof. exact prefix_refuted. Qed.
Print Assumptions C115_prefix_refuted.
Theorem C115_shorter_refuted : 
  exists lines db, lines = [% "A:SIS:time T1"; % "A:SIS x"] /\ read_mission_info lines None = Ok db /\ forall t, ~ at_path db [% "A"; % "SIS"; % "time"] t.
Proof. exact shorter_refuted. Qed.
Print Assumptions C115_shorter_refuted.
Theorem C115_twice_refuted : 
  exists info once twice, patch_mission_info info (Some % "xmm") = Ok once /\ patch_mission_info once (Some % "xmm") = Ok twice /\ once <> twice.
Proof. exact twice_patched_refuted. Qed.
Print Assumptions C115_twice_refuted.
Theorem C115_list_refuted : 
  exists lines db, lines = [% "XMM:gti GTI1 GTI2"] /\ read_mission_info lines (Some % "xmm") = Ok db /\
  at_path db [% "gti"] (Leaves [% "GTI1"; % "GTI2"; % ","; % "G"; % "T"; % "I"; % "0"]).
Proof. exact characters_refuted. Qed.
Print Assumptions C115_list_refuted.

Lemma one_word (w : str) : word w -> spaced w [w].
Proof. intros H. rewrite <- (app_nil_r w) at 1. apply (spaced_word [] w [] []); [constructor|exact H|now left|constructor; constructor]. Qed.
Lemma two_words (v w : str) : word v -> word w -> spaced (v ++ " "%char :: w) [v; w].
Proof.
  intros V W. apply (spaced_word [] v (" "%char :: w) [w]); [constructor|exact V|right; exists " "%char, w; split; [reflexivity|unfold is_blank; cbn; lia]|].
  rewrite <- (app_nil_r w) at 1. apply (spaced_word [" "%char] w [] []); [repeat constructor; unfold is_blank; cbn; lia|exact W|now left|constructor; constructor].
Qed.
Example C115_nonvacuous : exists E, says (Some % "asca") [% "!old"; % "ASCA:SIS0:time TIME"; % "ROSAT:time T"] E /\ compatible E /\ last_given E [% "SIS0"; % "time"] (Leaf % "TIME").
Proof.
  assert (W : forall w, (w <> [] /\ forallb (fun c => negb (blank c)) w = true)%bool -> word w).
  { intros w [N F]. split; [exact N|]. apply Forall_forall. intros c I B. rewrite forallb_forall in F. specialize (F c I). apply blank_iff in B. rewrite B in F. discriminate F. }
  assert (S1 : spaced % "ASCA:SIS0:time TIME" [% "ASCA:SIS0:time"; % "TIME"]) by (apply (two_words % "ASCA:SIS0:time" % "TIME"); apply W; split; [discriminate|reflexivity|discriminate|reflexivity]).
  assert (S2 : spaced % "ROSAT:time T" [% "ROSAT:time"; % "T"]) by (apply (two_words % "ROSAT:time" % "T"); apply W; split; [discriminate|reflexivity|discriminate|reflexivity]).
  exists [([% "SIS0"; % "time"], Leaf % "TIME")]. split.
  - apply says_comment; [right; exists % "!old", []; split; [apply one_word, W; split; [discriminate|reflexivity]|exists % "old"; reflexivity]|].
    apply (says_one _ % "asca" _ _ _ [% "ASCA"; % "SIS0"; % "time"]); [reflexivity| | |].
    + exists % "ASCA:SIS0:time", [% "TIME"], % "ASCA", % ":SIS0:time". split; [exact S1|]. split; [reflexivity|]. apply lower_same. reflexivity.
    + exists % "ASCA:SIS0:time", [% "TIME"]. split; [exact S1|]. split; [intros r H; discriminate H|]. split; [cbn; lia|]. split; [|split; reflexivity].
      intros k [<-|[<-|[<-|[]]]] I; cbn in I; repeat (destruct I as [I|I]; [discriminate I|]); destruct I.
    + apply (says_other _ % "asca" _ _ _ [% "ROSAT"; % "time"] (Leaf % "T")); [reflexivity| | |constructor].
      * exists % "ROSAT:time", [% "T"]. split; [exact S2|]. split; [intros r H; discriminate H|]. split; [cbn; lia|]. split; [|split; reflexivity].
        intros k [<-|[<-|[]]] I; cbn in I; repeat (destruct I as [I|I]; [discriminate I|]); destruct I.
      * intros (name & ws & a & b & S & E & SC). apply spaced_words in S. vm_compute in S. injection S as <- <-. apply lower_same in SC. destruct a as [|c a]; [discriminate SC|]. injection E as <- _. discriminate SC.
  - split; [intros p q [<-|[]] [<-|[]] _; reflexivity|]. exists [], []. split; [reflexivity|intros []].
Qed.

(* ---------- C116: keys of instruments and modes ---------- *)
Theorem C116_plain : forall info key v default,
  leaf v -> last_entry info key v -> get_key_from_mission_info info key default None None = Ok v.
Proof. exact key_plain. Qed.
Print Assumptions C116_plain.
Theorem C116_default : forall info key default,
  no_entry info key -> get_key_from_mission_info info key default None None = Ok default.
Proof. exact key_default. Qed.
Print Assumptions C116_default.
Theorem C116_case : forall info key key' default inst mode,
  same_case key key' -> get_key_from_mission_info info key default inst mode = get_key_from_mission_info info key' default inst mode.
Proof. exact key_case. Qed.
Print Assumptions C116_case.
Theorem C116_no_instrument : forall info key default inst mode,
  no_entry info inst -> get_key_from_mission_info info key default (Some inst) mode = get_key_from_mission_info info key default None mode.
Proof. exact key_no_instrument. Qed.
Print Assumptions C116_no_instrument.
Theorem C116_instrument : forall info key default inst e,
  last_entry info inst (Node e) -> ~ same_case key inst ->
  (forall v, leaf v -> last_entry e key v -> get_key_from_mission_info info key default (Some inst) None = Ok v) /\
  (no_entry e key -> get_key_from_mission_info info key default (Some inst) None = get_key_from_mission_info info key default None None).
Proof. exact key_instrument. Qed.
Print Assumptions C116_instrument.
Theorem C116_mode : forall info key default inst mode e f,
  last_entry info inst (Node e) -> (last_entry e mode (Node f) \/ (no_entry e mode /\ last_entry info mode (Node f))) ->
  ~ same_case mode inst -> ~ same_case key mode ->
  (forall v, leaf v -> last_entry f key v -> get_key_from_mission_info info key default (Some inst) (Some mode) = Ok v) /\
  (no_entry f key -> get_key_from_mission_info info key default (Some inst) (Some mode) = get_key_from_mission_info info key default (Some inst) None).
Proof. exact key_mode. Qed.
Print Assumptions C116_mode.
Theorem C116_is_instrument : forall info key default inst e,
  last_entry info inst (Node e) -> same_case key inst -> get_key_from_mission_info info key default (Some inst) None = Ok default.
Proof. exact key_is_instrument. Qed.
Print Assumptions C116_is_instrument.
Theorem C116_word_error : forall info key default inst mode w,
  last_entry info inst (Leaf w) -> w <> [] -> get_key_from_mission_info info key default (Some inst) mode = Err ValueError.
Proof. exact key_word_error. Qed.
Print Assumptions C116_word_error.
Theorem C116_words_error : forall info key default inst mode l w,
  last_entry info inst (Leaves l) -> In w l -> length w <> 2%nat -> get_key_from_mission_info info key default (Some inst) mode = Err ValueError.
Proof. exact key_words_error. Qed.
Print Assumptions C116_words_error.
Theorem C116_search : forall s l a,
  case_insensitive_search s l = Some a <-> exists before after, l = before ++ a :: after /\ same_case s a /\ forall b, In b before -> ~ same_case s b.
Proof. exact search_first. Qed.
Print Assumptions C116_search.
Theorem C116_search_none : forall s l,
  case_insensitive_search s l = None <-> forall b, In b l -> ~ same_case s b.
Proof. exact search_none. Qed.
Print Assumptions C116_search_none.

Example C116_nonvacuous : get_key_from_mission_info [(% "gti", Leaf % "GTI"); (% "M1", Node [(% "GTI", Leaf % "G1"); (% "m2", Node [(% "gti", Leaf % "G2")])])] % "Gti" (Leaf % "x") (Some % "m1") (Some % "M2") = Ok (Leaf % "G2") /\
  last_entry [(% "gti", Leaf % "GTI"); (% "M1", Node [(% "GTI", Leaf % "G1"); (% "m2", Node [(% "gti", Leaf % "G2")])])] % "m1" (Node [(% "GTI", Leaf % "G1"); (% "m2", Node [(% "gti", Leaf % "G2")])]).
Proof.
  split; [vm_compute; reflexivity|]. exists [(% "gti", Leaf % "GTI")]. eexists. exists []. split; [reflexivity|]. split; [apply lower_same; reflexivity|intros ? ? []].
Qed.

