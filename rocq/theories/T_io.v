(* T_io.v: property theorems about the helper functions of io.py (C45, C70, C71). *)
From Verif Require Import Np Lib M_io S_io P_io.
From Coq Require Import Ascii String List.
Import ListNotations.
Open Scope Q_scope.

(* ---------- C45: splitting numbers ---------- *)
Theorem C45_parts_partial : forall n k,
  is_int n = false \/ (0 <= k)%Z ->
  exists i f after, split_numbers n k = Ok (i, f, after) /\ length i = length (values_of n) /\ length f = length (values_of n) /\
    Forall2 (fun x p => parts_at k x (fst p) (snd p)) (values_of n) (combine i f) /\ (is_array n = false -> after = n).
Proof. exact split_main. Qed.
Print Assumptions C45_parts_partial.
Theorem C45_integers_error : forall n k,
  is_int n = true -> (k < 0)%Z -> split_numbers n k = Err TypeError.
Proof. exact split_int_error. Qed.
Print Assumptions C45_integers_error.
Theorem C45_every_shift_refuted : 
  exists l k, split_numbers (IntList l) k = Err TypeError.
Proof. exact split_int_refuted. Qed.
Print Assumptions C45_every_shift_refuted.
Theorem C45_input_unchanged_refuted : 
  exists l k i f after x y, split_numbers (FloatArray l) k = Ok (i, f, after) /\
  nth_error (values_of after) 0 = Some y /\ nth_error l 0 = Some x /\ ~ y == x.
Proof. exact split_input_refuted. Qed.
Print Assumptions C45_input_unchanged_refuted.

Example C45_nonvacuous : is_int (Number (-1234 # 100)) = false /\
  split_numbers (Number (-1234 # 100)) 1 = Ok ([-(123) # 10], [-(40) # 1000], Number (-1234 # 100)) /\
  parts_at 1 (-1234 # 100) (-(123) # 10) (-(40) # 1000).
Proof.
  split; [reflexivity|]. split; [vm_compute; reflexivity|]. split; [reflexivity|]. split; [exists (-123)%Z; reflexivity|].
  split; [split; reflexivity|]. split; intros H; [exfalso; apply H; reflexivity|split; discriminate].
Qed.

(* ---------- C70: common part of two names ---------- *)
Theorem C70_common_letters_partial : forall a b d,
  (length a <> length b -> common_name a b d = d) /\
  common_name a b d = common_name b a d /\
  (length a = length b ->
     (common_name a b d = d /\ trimmed (letters_in_common a b) []) \/
     (common_name a b d <> [] /\ trimmed (letters_in_common a b) (common_name a b d) /\
      ~ starts_by (fun c => c = "-"%char) (common_name a b d) /\ ~ ends_by (fun c => c = "-"%char) (common_name a b d))).
Proof. exact common_main. Qed.
Print Assumptions C70_common_letters_partial.
Theorem C70_plain_names : forall a b d,
  length a = length b -> letters_in_common a b <> [] ->
  ~ starts_by mark (letters_in_common a b) -> ~ ends_by mark (letters_in_common a b) -> common_name a b d = letters_in_common a b.
Proof. exact common_plain. Qed.
Print Assumptions C70_plain_names.
Theorem C70_no_marks_left_refuted : 
  exists a b d, length a = length b /\ common_name a b d <> d /\ ends_by mark (common_name a b d).
Proof. exact common_refuted. Qed.
Print Assumptions C70_no_marks_left_refuted.

Example C70_nonvacuous : length (% "A_x_C") = length (% "B_x_C") /\ letters_in_common % "Axa-C" % "Axb-C" = % "Ax-C" /\
  common_name % "_file_A" % "_file_B" % "common" = % "file" /\ common_name % "Axa-C" % "Axb-C" % "common" = % "Ax-C".
Proof. repeat split; vm_compute; reflexivity. Qed.

(* ---------- C71: file extensions ---------- *)
Theorem C71_extension_partial : forall r x z,
  has_name r -> ~ In dot x -> ~ In slash x -> z = [] \/ z = gz ->
  ~ occurs gz (r ++ dot :: x) -> ~ occurs r (dot :: x ++ z) ->
  get_file_extension (r ++ dot :: x ++ z) = dot :: x ++ z.
Proof. exact extension_main. Qed.
Print Assumptions C71_extension_partial.
Theorem C71_no_extension : forall f,
  f <> [] -> no_extension f -> ~ occurs gz f -> get_file_extension f = [].
Proof. exact extension_none. Qed.
Print Assumptions C71_no_extension.
Theorem C71_every_name_refuted : 
  exists r x, has_name r /\ ~ In dot x /\ ~ In slash x /\ ~ occurs gz (r ++ dot :: x) /\
  get_file_extension (r ++ dot :: x) <> dot :: x.
Proof. exact extension_refuted. Qed.
Print Assumptions C71_every_name_refuted.

Example C71_nonvacuous : has_name (% "d.x/ciao.tutti") /\ ~ In dot (% "evt") /\ ~ occurs gz (% "d.x/ciao.tutti" ++ dot :: % "evt") /\
  get_file_extension (% "d.x/ciao.tutti.evt.gz") = % ".evt.gz" /\ no_extension (% "d.x/.profile") /\ get_file_extension (% "d.x/.profile") = [].
Proof.
  split; [exists (% "d.x/ciao.tutt"), "i"%char, []; repeat split; try discriminate; intros []|].
  split; [intros [C|[C|[C|[]]]]; discriminate|]. split; [|split; [vm_compute; reflexivity|split; [|vm_compute; reflexivity]]].
  2: { exists (% "d.x/"), [dot], (% "profile"). split; [reflexivity|]. split; [right; exists slash, (% "d.x"); split; reflexivity|].
       split; [repeat constructor|]. split; cbn; intuition discriminate. }
  intros (a & b & E). do 19 (destruct a as [|? a]; [discriminate|cbn in E; try discriminate E; apply (f_equal (@tl ascii)) in E; cbn in E]); discriminate.
Qed.

