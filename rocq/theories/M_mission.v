(* M_mission.v: model of stingray/mission_support and of the key lookup of stingray/io.py.  Strings are lists of characters (ASCII). *)
From Coq Require Import String Ascii.
From Verif Require Import Np M_utils M_base M_io.
From Coq Require Import ZArith QArith List Bool.
Import ListNotations.
Open Scope Z_scope.

(* ---- strings ---- *)
Fixpoint str_eqb (a b : str) : bool := match a, b with [], [] => true | x :: a', y :: b' => Ascii.eqb x y && str_eqb a' b' | _, _ => false end.
(* s.lower() *)
Definition lower_char (c : ascii) : ascii := let n := nat_of_ascii c in if (Nat.leb 65 n && Nat.leb n 90)%bool then ascii_of_nat (n + 32) else c.
Definition lower (s : str) : str := map lower_char s.
(* sep in s, s.split(sep) for one character *)
Definition has (c : ascii) (s : str) : bool := existsb (Ascii.eqb c) s.
Fixpoint split_on (c : ascii) (s : str) : list str :=
  match s with
  | [] => [[]]
  | a :: s' => if Ascii.eqb a c then [] :: split_on c s'
               else match split_on c s' with p :: ps => (a :: p) :: ps | [] => [[a]] end
  end.
(* int(s): blanks around it and a sign are accepted (underscores between digits are left out) *)
Definition digit (c : ascii) : option Z := let n := nat_of_ascii c in if (Nat.leb 48 n && Nat.leb n 57)%bool then Some (Z.of_nat n - 48) else None.
Fixpoint digits_from (acc : Z) (s : str) : option Z :=
  match s with [] => Some acc | c :: s' => match digit c with Some d => digits_from (10 * acc + d) s' | None => None end end.
Definition blank (c : ascii) : bool := existsb (Nat.eqb (nat_of_ascii c)) [9; 10; 11; 12; 13; 32]%nat.
Fixpoint strip_left (s : str) : str := match s with c :: s' => if blank c then strip_left s' else s | [] => [] end.
Definition strip (s : str) : str := rev (strip_left (rev (strip_left s))).
Definition int_of (s : str) : result Z :=
  let number := fun s : str => match s with [] => Err ValueError | _ => match digits_from 0 s with Some v => Ok v | None => Err ValueError end end in
  match strip s with
  | "-"%char :: s' => let! v := number s' in Ok (- v)
  | "+"%char :: s' => number s'
  | s' => number s'
  end.

(* ---- channels of RXTE event files ---- *)
(* rxte.py:23-49 _split_chan_spec; cs[0][:-0] is empty *)
Definition split_chan_spec (chan : str) (sep : ascii) : result (Z * Z) :=
  let cs := if has sep chan then split_on sep chan else [chan; chan] in
  match cs with
  | c0 :: c1 :: _ =>
      let c1 := if Nat.ltb (length c1) (length c0)
                then (match c1 with [] => [] | _ => firstn (length c0 - length c1) c0 end) ++ c1 else c1 in
      let! a := int_of c0 in
      let! b := int_of c1 in
      Ok (a, b)
  | _ => Err IndexError
  end.
(* rxte.py:52-62 _split_C_string *)
Definition split_C_string (string : str) (sep : ascii) : result (list (Z * Z)) :=
  if has ":" string then
    match split_on ":" string with
    | a :: b :: _ => let! a := int_of a in let! b := int_of b in Ok (map (fun i => (a + Z.of_nat i, a + Z.of_nat i)) (seq 0 (Z.to_nat (b + 1 - a))))
    | _ => Err IndexError
    end
  else map_result (fun chan => split_chan_spec chan sep) (split_on "," string).
(* re.split(",(?=[A-Z])", s) *)
Definition upper (c : ascii) : bool := let n := nat_of_ascii c in (Nat.leb 65 n && Nat.leb n 90)%bool.
Fixpoint split_fields (s : str) : list str :=
  match s with
  | [] => [[]]
  | a :: s' =>
      if (Ascii.eqb a "," && match s' with b :: _ => upper b | [] => false end)%bool then [] :: split_fields s'
      else match split_fields s' with p :: ps => (a :: p) :: ps | [] => [[a]] end
  end.
(* rxte.py:9 c_match.match: what follows C[ up to the last closing bracket (no line breaks) *)
Definition match_C (line : str) : option str :=
  match line with
  | "C"%char :: "["%char :: rest => match rfind "]" rest with Some i => Some (firstn i rest) | None => None end
  | _ => None
  end.
(* rxte.py:65-97 _decode_energy_channels *)
Fixpoint find_C (lines : list str) : result str :=
  match lines with
  | [] => Err ValueError
  | line :: rest => match line with
                    | "C"%char :: _ => match match_C line with Some m => Ok m | None => Err AttributeError end
                    | _ => find_C rest
                    end
  end.
Definition decode_energy_channels (tevtb2 : str) : result (list (Z * Z)) :=
  let! line := find_C (split_fields tevtb2) in
  split_C_string line "~".
(* rxte.py:373-376: PHA column of an event file; int(np.mean((a, b))) *)
Definition local_chans (chans : list (Z * Z)) : list Z := map (fun c => Z.quot (fst c + snd c) 2) chans.
Definition rxte_pha (tevtb2 : str) (pha : list Z) : result (list Z) :=
  let! chans := decode_energy_channels tevtb2 in
  map_result (fun p => py_get (local_chans chans) p) pha.

(* ---- energies of RXTE channels ---- *)
(* rxte.py:138-269: absolute channels and energies (in 1/100 keV) in the columns E1, E2, E3, E4, E5_0, E5_1234 *)
Definition caltable : list (str * list Z) := [
  (% "0-4", [151; 161; 194; 213; 195; 206]); (% "5", [176; 191; 229; 254; 238; 247]); (% "6", [202; 222; 264; 296; 281; 287]);
  (% "7", [227; 252; 299; 337; 324; 328]); (% "8", [253; 283; 335; 379; 367; 368]); (% "9", [278; 313; 370; 421; 409; 409]);
  (% "10", [304; 344; 405; 463; 453; 449]); (% "11", [330; 375; 441; 504; 496; 490]); (% "12", [355; 405; 476; 546; 539; 531]);
  (% "13", [381; 436; 512; 588; 582; 571]); (% "14", [407; 467; 547; 630; 625; 612]); (% "15", [432; 498; 582; 672; 668; 653]);
  (% "16", [458; 528; 618; 714; 711; 694]); (% "17", [484; 559; 654; 756; 755; 735]); (% "18", [510; 590; 689; 798; 798; 776]);
  (% "19", [535; 621; 725; 840; 842; 817]); (% "20", [561; 652; 760; 882; 885; 857]); (% "21", [587; 683; 796; 924; 928; 898]);
  (% "22", [613; 714; 832; 967; 972; 940]); (% "23", [639; 745; 868; 1009; 1016; 981]); (% "24", [665; 776; 903; 1051; 1059; 1022]);
  (% "25", [691; 807; 939; 1093; 1103; 1063]); (% "26", [717; 838; 975; 1136; 1147; 1104]); (% "27", [743; 869; 1011; 1178; 1190; 1145]);
  (% "28", [769; 900; 1047; 1221; 1234; 1187]); (% "29", [795; 931; 1083; 1263; 1278; 1228]); (% "30", [821; 963; 1119; 1306; 1322; 1269]);
  (% "31", [847; 994; 1155; 1348; 1366; 1311]); (% "32", [873; 1025; 1191; 1391; 1410; 1352]); (% "33", [899; 1056; 1227; 1434; 1454; 1393]);
  (% "34", [925; 1088; 1263; 1476; 1498; 1435]); (% "35", [952; 1119; 1299; 1519; 1542; 1476]); (% "36", [978; 1150; 1336; 1562; 1586; 1518]);
  (% "37", [1004; 1182; 1372; 1605; 1630; 1560]); (% "38", [1030; 1213; 1408; 1647; 1674; 1601]); (% "39", [1057; 1245; 1444; 1690; 1719; 1643]);
  (% "40", [1083; 1276; 1481; 1733; 1763; 1685]); (% "41", [1109; 1308; 1517; 1776; 1807; 1726]); (% "42", [1136; 1339; 1554; 1819; 1852; 1768]);
  (% "43", [1162; 1371; 1590; 1862; 1896; 1810]); (% "44", [1189; 1403; 1626; 1905; 1941; 1852]); (% "45", [1215; 1434; 1663; 1949; 1985; 1894]);
  (% "46", [1242; 1466; 1700; 1992; 2030; 1936]); (% "47", [1268; 1498; 1736; 2035; 2075; 1978]); (% "48", [1295; 1529; 1773; 2078; 2119; 2020]);
  (% "49", [1321; 1561; 1809; 2122; 2164; 2062]); (% "50", [1348; 1593; 1846; 2165; 2209; 2104]); (% "51", [1374; 1625; 1883; 2208; 2254; 2146]);
  (% "52", [1401; 1657; 1920; 2252; 2298; 2188]); (% "53", [1428; 1689; 1956; 2295; 2343; 2230]); (% "54-5", [1481; 1752; 2030; 2382; 2433; 2315]);
  (% "56-7", [1535; 1816; 2104; 2470; 2524; 2400]); (% "58-9", [1588; 1881; 2178; 2557; 2614; 2485]); (% "60-1", [1642; 1945; 2252; 2645; 2705; 2570]);
  (% "62-3", [1696; 2009; 2326; 2733; 2795; 2655]); (% "64-5", [1750; 2074; 2401; 2821; 2886; 2740]); (% "66-7", [1804; 2139; 2475; 2909; 2978; 2826]);
  (% "68-9", [1858; 2203; 2550; 2997; 3069; 2912]); (% "70-1", [1912; 2268; 2625; 3086; 3161; 2997]); (% "72-3", [1967; 2333; 2700; 3174; 3252; 3083]);
  (% "74-5", [2021; 2399; 2775; 3263; 3344; 3170]); (% "76-7", [2076; 2464; 2850; 3352; 3436; 3256]); (% "78-9", [2130; 2529; 2926; 3442; 3529; 3343]);
  (% "80-1", [2185; 2595; 3002; 3531; 3621; 3429]); (% "82-3", [2240; 2661; 3077; 3621; 3714; 3516]); (% "84-5", [2295; 2727; 3153; 3710; 3807; 3603]);
  (% "86-7", [2350; 2793; 3229; 3800; 3901; 3691]); (% "88-9", [2406; 2859; 3306; 3891; 3994; 3778]); (% "90-1", [2461; 2925; 3382; 3981; 4088; 3866]);
  (% "92-3", [2517; 2991; 3459; 4072; 4182; 3953]); (% "94-5", [2572; 3058; 3535; 4162; 4276; 4041]); (% "96-7", [2628; 3125; 3612; 4253; 4370; 4130]);
  (% "98-9", [2684; 3192; 3689; 4344; 4464; 4218]); (% "100-1", [2740; 3259; 3767; 4436; 4559; 4306]); (% "102-3", [2796; 3326; 3844; 4527; 4654; 4395]);
  (% "104-5", [2852; 3393; 3922; 4619; 4749; 4484]); (% "106-7", [2909; 3461; 3999; 4711; 4845; 4573]); (% "108-9", [2965; 3528; 4077; 4803; 4941; 4662]);
  (% "110-1", [3022; 3596; 4155; 4896; 5036; 4752]); (% "112-3", [3079; 3664; 4234; 4988; 5133; 4841]); (% "114-5", [3136; 3732; 4312; 5081; 5229; 4931]);
  (% "116-7", [3193; 3800; 4391; 5174; 5325; 5021]); (% "118-9", [3250; 3868; 4470; 5267; 5422; 5112]); (% "120-1", [3307; 3937; 4549; 5361; 5519; 5202]);
  (% "122-3", [3364; 4006; 4628; 5454; 5617; 5293]); (% "124-5", [3422; 4074; 4707; 5548; 5714; 5383]); (% "126-7", [3480; 4143; 4787; 5642; 5812; 5474]);
  (% "128-9", [3538; 4213; 4866; 5737; 5910; 5566]); (% "130-1", [3595; 4282; 4946; 5831; 6008; 5657]); (% "132-3", [3654; 4351; 5026; 5926; 6107; 5749]);
  (% "134-5", [3712; 4421; 5106; 6021; 6206; 5840]); (% "136-8", [3799; 4526; 5227; 6164; 6354; 5978]); (% "139-41", [3887; 4631; 5348; 6307; 6504; 6117]);
  (% "142-4", [3975; 4736; 5470; 6451; 6654; 6256]); (% "145-7", [4064; 4842; 5592; 6595; 6804; 6396]); (% "148-50", [4153; 4949; 5714; 6740; 6955; 6536]);
  (% "151-3", [4242; 5055; 5837; 6886; 7107; 6676]); (% "154-6", [4332; 5162; 5960; 7032; 7259; 6817]); (% "157-9", [4421; 5270; 6084; 7178; 7412; 6959]);
  (% "160-2", [4512; 5378; 6208; 7325; 7565; 7101]); (% "163-5", [4602; 5486; 6333; 7473; 7719; 7243]); (% "166-8", [4693; 5595; 6458; 7621; 7874; 7386]);
  (% "169-71", [4784; 5704; 6584; 7770; 8030; 7530]); (% "172-4", [4876; 5813; 6710; 7919; 8186; 7674]); (% "175-7", [4968; 5923; 6837; 8069; 8343; 7818]);
  (% "178-80", [5060; 6033; 6964; 8220; 8500; 7963]); (% "181-3", [5153; 6144; 7091; 8371; 8658; 8109]); (% "184-6", [5246; 6255; 7219; 8523; 8817; 8255]);
  (% "187-9", [5339; 6367; 7348; 8675; 8976; 8402]); (% "190-2", [5433; 6479; 7477; 8828; 9137; 8549]); (% "193-5", [5527; 6592; 7607; 8981; 9298; 8697]);
  (% "196-8", [5622; 6705; 7737; 9136; 9459; 8846]); (% "199-201", [5717; 6818; 7868; 9291; 9622; 8995]); (% "202-4", [5812; 6932; 7999; 9446; 9785; 9145]);
  (% "205-7", [5908; 7047; 8130; 9602; 9949; 9295]); (% "208-10", [6004; 7162; 8263; 9759; 10114; 9446]); (% "211-3", [6100; 7277; 8396; 9917; 10279; 9597]);
  (% "214-6", [6197; 7393; 8529; 10075; 10446; 9749]); (% "217-9", [6295; 7510; 8663; 10234; 10613; 9902]); (% "220-2", [6393; 7627; 8798; 10393; 10781; 10055]);
  (% "223-5", [6491; 7744; 8933; 10554; 10950; 10209]); (% "226-8", [6590; 7862; 9069; 10715; 11119; 10364]); (% "229-31", [6689; 7981; 9205; 10876; 11290; 10519]);
  (% "232-4", [6789; 8100; 9342; 11039; 11461; 10675]); (% "235-7", [6889; 8220; 9480; 11202; 11633; 10832]); (% "238-41", [7023; 8380; 9664; 11421; 11865; 11042]);
  (% "242-5", [7158; 8542; 9850; 11641; 12097; 11253]); (% "246-9", [7294; 8704; 10037; 11863; 12332; 11465]); (% "250-5", [7499; 8950; 10319; 12198; 12687; 11786])].
(* rxte.py:11-20 _EDGE_EPOCHS in days (MJD), from dates given to the minute *)
Definition edge_epochs : list Q := [72116640 # 1440; 72235833 # 1440; 72272105 # 1440; 73814017 # 1440; 74414880 # 1440; 80540640 # 1440]%Q.
(* energies[a : b + 1] = e for an array of 256 values, 0 <= a and 0 <= b *)
Definition assign (l : list Q) (a b : Z) (e : Q) : list Q :=
  map (fun p => if ((a <=? Z.of_nat (fst p)) && (Z.of_nat (fst p) <=? b))%bool then e else snd p) (combine (seq 0 (length l)) l).
(* rxte.py:271-286 the arrays of pca_calibration_func; columns E0 and E6 do not exist *)
Definition columns_of (col_idx : nat) : result (nat * nat) :=
  match col_idx with
  | 1%nat => Ok (0, 0)%nat | 2%nat => Ok (1, 1)%nat | 3%nat => Ok (2, 2)%nat | 4%nat => Ok (3, 3)%nat | 5%nat => Ok (4, 5)%nat
  | _ => Err KeyError
  end.
Definition energies_of (chans : list (Z * Z)) (column : list Z) : list Q :=
  fold_left (fun l p => assign l (fst (fst p)) (snd (fst p)) (inject_Z (snd p) / 100)%Q) (combine chans column) (repeat 0%Q 256).
Definition column (k : nat) : list Z := map (fun r => nth k (snd r) 0) caltable.
Definition pca_arrays (epoch : Q) : result (list Q * list Q) :=
  let! chans := map_result (fun r => split_chan_spec (fst r) "-") caltable in
  let! cols := columns_of (searchsorted_left edge_epochs epoch) in
  Ok (energies_of chans (column (fst cols)), energies_of chans (column (snd cols))).
(* rxte.py:288-293 func: the energy of a whole channel number in a detector *)
Definition pca_energy (epoch : Q) (chan detector_id : Z) : result Q :=
  let! e := pca_arrays epoch in
  py_get (if detector_id =? 0 then fst e else snd e) chan.
(* rxte.py:296-310 rxte_calibration_func *)
Definition rxte_energy (instrument : option str) (epoch : Q) (chan detector_id : Z) : result Q :=
  match instrument with
  | None => Err AttributeError
  | Some i => if str_eqb (lower i) % "pca" then pca_energy epoch chan detector_id else Err ValueError
  end.

(* ---- rough energies ---- *)
(* missions.py:22-63 rough_calibration *)
Definition rough_calibration (pi : Q) (mission : str) : result Q :=
  let m := lower mission in
  if str_eqb m % "nustar" then Ok (pi * (4 # 100) + (162 # 100))%Q
  else if str_eqb m % "xmm" then Ok (pi * (1 # 1000))%Q
  else if str_eqb m % "nicer" then Ok (pi * (1 # 100))%Q
  else if str_eqb m % "ixpe" then Ok (pi / 375 * 15)%Q
  else Err ValueError.
(* missions.py:142-148 SIMPLE_CONVERSION_FUNCTIONS *)
Definition simple_conversion (m : str) : option (Q -> Q) :=
  if str_eqb m % "nustar" then Some (fun pi => pi * (4 # 100) + (162 # 100))%Q
  else if str_eqb m % "xmm" then Some (fun pi => pi * (1 # 1000))%Q
  else if str_eqb m % "nicer" then Some (fun pi => pi * (1 # 100))%Q
  else if str_eqb m % "ixpe" then Some (fun pi => pi / 375 * 15)%Q
  else if str_eqb m % "axaf" then Some (fun pi => (pi - 1) * (146 # 10000))%Q
  else None.
(* missions.py:151-179 get_rough_conversion_function, applied to a channel (whole number for RXTE) *)
Definition rough_conversion (mission : str) (instrument : option str) (epoch : Q) (pi : Z) (detector_id : Z) : result Q :=
  match simple_conversion (lower mission) with
  | Some f => Ok (f (inject_Z pi))
  | None => if str_eqb (lower mission) % "xte" then rxte_energy instrument epoch pi detector_id else Err ValueError
  end.

(* ---- the mission database ---- *)
(* values of the nested dictionaries: one word, several words (or none), a dictionary *)
Inductive tree := Leaf (s : str) | Leaves (l : list str) | Node (d : list (str * tree)).
Notation dict := (list (str * tree)).
Fixpoint dget (d : dict) (k : str) : option tree := match d with [] => None | (k', v) :: d' => if str_eqb k' k then Some v else dget d' k end.
Fixpoint dset (d : dict) (k : str) (v : tree) : dict :=
  match d with [] => [(k, v)] | (k', v') :: d' => if str_eqb k' k then (k', v) :: d' else (k', v') :: dset d' k v end.
Definition dpop (d : dict) (k : str) : dict := filter (fun p => negb (str_eqb (fst p) k)) d.
Definition dupdate (d e : dict) : dict := fold_left (fun d p => dset d (fst p) (snd p)) e d.
(* missions.py:117-131: setting the value of a path of keys; a key below a value that is not a dictionary is a TypeError *)
Fixpoint put (d : dict) (path : list str) (v : tree) : result dict :=
  match path with
  | [] => Err IndexError
  | [k] => Ok (dset d k v)
  | k :: rest =>
      match dget d k with
      | None => let! d' := put [] rest v in Ok (dset d k (Node d'))
      | Some (Node e) => let! d' := put e rest v in Ok (dset d k (Node d'))
      | Some _ => Err TypeError
      end
  end.
(* s.split() *)
Fixpoint words_from (cur : str) (s : str) : list str :=
  match s with
  | [] => match cur with [] => [] | _ => [rev cur] end
  | c :: s' => if blank c then (match cur with [] => words_from [] s' | _ => rev cur :: words_from [] s' end) else words_from (c :: cur) s'
  end.
Definition words (s : str) : list str := words_from [] s.
(* missions.py:105-131 one line of the database; mission is already in lower case *)
Definition read_line (mission : option str) (db : dict) (line : str) : result dict :=
  let line := strip line in
  if match mission with Some m => negb (starts_with m (lower line)) | None => false end then Ok db
  else if match line with [] => true | c :: _ => Ascii.eqb c "!" end then Ok db
  else match words line with
       | [] => Err IndexError
       | string :: value =>
           let value := match value with [w] => Leaf w | _ => Leaves value end in
           let data := split_on ":" string in
           match mission with
           | None => match data with [_] => Err IndexError | _ => put db data value end
           | Some _ => put db (tl data) value
           end
       end.
(* missions.py:66-88 _patch_mission_info; adding a string to a list appends its characters *)
Definition patch_mission_info (info : dict) (mission : option str) : result dict :=
  match mission with
  | None => Ok info
  | Some m =>
      let! info := if str_eqb (lower m) % "xmm" then
                     match dget info % "gti" with
                     | None => Ok info
                     | Some (Leaf s) => Ok (dset info % "gti" (Leaf (s ++ % ",GTI0")))
                     | Some (Leaves l) => Ok (dset info % "gti" (Leaves (l ++ map (fun c => [c]) % ",GTI0")))
                     | Some (Node _) => Err TypeError
                     end
                   else Ok info in
      if str_eqb (lower m) % "xte" then
        match dget info % "ecol" with
        | None => Ok info
        | Some _ => Ok (dset (dset info % "ecol" (Leaf % "PHA")) % "ccol" (Leaf % "PCUID"))
        end
      else Ok info
  end.
(* missions.py:91-132 read_mission_info, from the lines of the file *)
Fixpoint read_lines (mission : option str) (db : dict) (lines : list str) : result dict :=
  match lines with [] => Ok db | l :: ls => let! db := read_line mission db l in read_lines mission db ls end.
Definition read_mission_info (lines : list str) (mission : option str) : result dict :=
  let mission := option_map lower mission in
  let! db := read_lines mission [] lines in
  patch_mission_info db mission.
(* utils.py:150-180 make_dictionary_lowercase with recursive=True *)
Fixpoint lower_tree (t : tree) : tree :=
  match t with
  | Node d => Node (fold_left (fun acc p => dset acc (lower (fst p)) (lower_tree (snd p))) d [])
  | t => t
  end.
Definition lower_dict (d : dict) : dict := fold_left (fun acc p => dset acc (lower (fst p)) (lower_tree (snd p))) d [].
(* d.update(v): a dictionary, or a sequence of pairs (of words with two characters) *)
Definition update_with (d : dict) (v : tree) : result dict :=
  match v with
  | Node e => Ok (dupdate d e)
  | Leaf [] => Ok d
  | Leaf _ => Err ValueError
  | Leaves l => let! e := map_result (fun w => match w with [a; b] => Ok ([a], Leaf [b]) | _ => Err ValueError end) l in Ok (dupdate d e)
  end.
(* io.py:236-297 get_key_from_mission_info: one specialisation, then the lookup *)
Definition specialise (info : dict) (name : option str) : result dict :=
  match name with
  | None => Ok info
  | Some n => match dget info (lower n) with
              | None => Ok info
              | Some v => let! d := update_with info v in Ok (dpop d (lower n))
              end
  end.
Definition get_key_from_mission_info (info : dict) (key : str) (default : tree) (inst mode : option str) : result tree :=
  let! info := specialise (lower_dict info) inst in
  let! info := specialise info mode in
  Ok (match dget info (lower key) with Some v => v | None => default end).
(* io.py:179-191 _case_insensitive_search_in_list *)
Fixpoint case_insensitive_search (s : str) (l : list str) : option str :=
  match l with [] => None | a :: l' => if str_eqb (lower s) (lower a) then Some a else case_insensitive_search s l' end.
