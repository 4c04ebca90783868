(* T_meta.v: property theorems about the meta data of tables (C223). *)
From Coq Require Import String Ascii.
From Verif Require Import Np Lib M_io M_meta S_meta P_meta.
From Coq Require Import ZArith QArith List Bool Lia.
Import ListNotations.
Open Scope Q_scope.
Theorem C223_meta_partial : forall (number : str -> option Q) (d : list (str * mvalue)), (forall s : str, within (list_ascii_of_string "np.float") s \/ within
  (list_ascii_of_string "np.int") s -> number s = None) -> Forall (fun p : str * mvalue => ~ trouble (snd p)) d -> exists t : list (str * mvalue), table_meta number false d
  = Ok t /\ Forall2 (fun p q : str * mvalue => fst q = fst p /\ as_python (snd p) (snd q)) d t.
Proof. exact @meta_ok. Qed.
Print Assumptions C223_meta_partial.
Theorem C223_trouble_error : forall (number : str -> option Q) (d : list (str * mvalue)) (k : str) (v : mvalue), (forall s : str, within (list_ascii_of_string "np.float")
  s \/ within (list_ascii_of_string "np.int") s -> number s = None) -> In (k, v) d -> trouble v -> table_meta number false d = Err ValueError \/ table_meta number false d =
  Err TypeError.
Proof. exact @meta_error. Qed.
Print Assumptions C223_trouble_error.
Theorem C223_double_partial : forall (number : str -> option Q) (d : list (str * mvalue)), (forall s : str, within (list_ascii_of_string "np.float") s \/ within
  (list_ascii_of_string "np.int") s -> number s = None) -> Forall (fun p : str * mvalue => ~ trouble (snd p) /\ ~ long_list (snd p)) d -> exists t : list (str * mvalue),
  table_meta number true d = Ok t /\ Forall2 (fun p q : str * mvalue => fst q = fst p /\ as_double (snd p) (snd q)) d t.
Proof. exact @meta_double. Qed.
Print Assumptions C223_double_partial.
Theorem C223_long_list_error : forall (number : str -> option Q) (k : str) (v : mvalue) (d : list (str * mvalue)), long_list v -> table_meta number true ((k, v) :: d) =
  Err AttributeError.
Proof. exact @double_error. Qed.
Print Assumptions C223_long_list_error.
(* a list of numpy numbers, a note that mentions np.float64, a list of longdoubles: no table can be made *)
Theorem C223_meta_refuted : exists l s m, l = [MFloat 1; MFloat 2] /\ s = % "cast to np.float64" /\ m = [MLong 1; MLong 2] /\
  table_meta (fun _ => None) false [(% "energies", MList l)] = Err TypeError /\ table_meta (fun _ => None) false [(% "notes", MText s)] = Err ValueError /\
  table_meta (fun _ => None) true [(% "refs", MList m)] = Err AttributeError.
Proof. do 3 eexists. do 3 (split; [reflexivity|]). split; [reflexivity|]. split; reflexivity. Qed.
Print Assumptions C223_meta_refuted.
Example C223_example : ~ trouble (MList [MPy 1; MLong 2]) /\ ~ trouble (MText (% "notes")) /\ trouble (MList [MPy 1; MInt 3]) /\ long_list (MList [MList [MLong 1; MPy 2]; MNone]) /\
  table_meta (fun _ => None) true [(% "dt", MLong (1 # 2)); (% "m", MInt 3); (% "gti", MArr true [0; 1]); (% "notes", MText (% "ok"))] =
    Ok [(% "dt", MPy (1 # 2)); (% "m", MPy 3); (% "gti", MArr false [0; 1]); (% "notes", MText (% "ok"))].
Proof.
  split; [intros H; inversion H as [|l v I N]; subst; destruct I as [<-|[<-|[]]]; inversion N|].
  split; [intros H; inversion H as [s W|]; subst; destruct W as [W|W]; apply sub_iff in W; vm_compute in W; discriminate|].
  split; [apply (bad_list _ (MInt 3)); [right; now left|constructor]|]. split; [apply long_deep, long_number|reflexivity].
Qed.
