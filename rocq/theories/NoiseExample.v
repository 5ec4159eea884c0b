(** * NoiseExample: small datacubes for the examples of Props_Noise. *)
From Coq Require Import Reals Lra Lia List Bool Arith ZArith.
From Verif Require Import Num NumLemmas Arr ArrLemmas Noise NoiseLemmas.
Import ListNotations.
Local Open Scope R_scope.

Definition exyf (idx : list nat) : R := nth (hd O idx) [1; 4; 9] 0.
Definition exy : arr num := Arr [3]%nat (fun idx => Fin (exyf idx)).
Definition exnegf (idx : list nat) : R := nth (hd O idx) [1; -4; 9] 0.
Definition exneg : arr num := Arr [3]%nat (fun idx => Fin (exnegf idx)).
Lemma exy_data : is_data exy exyf. Proof. intros idx _. reflexivity. Qed.
Lemma exneg_data : is_data exneg exnegf. Proof. intros idx _. reflexivity. Qed.
Lemma ex_in0 : inb [0]%nat (shp exy). Proof. repeat (constructor; [cbn; lia|]); constructor. Qed.
Lemma ex_in1 : inb [1]%nat (shp exy). Proof. repeat (constructor; [cbn; lia|]); constructor. Qed.
Lemma ex_in2 : inb [2]%nat (shp exy). Proof. repeat (constructor; [cbn; lia|]); constructor. Qed.
Lemma ex3 idx : inb idx [3]%nat -> idx = [0]%nat \/ idx = [1]%nat \/ idx = [2]%nat.
Proof. intros H. inb_inv. destruct i as [|[|[|i]]]; [auto|auto|auto|lia]. Qed.
Lemma exy_pos idx : inb idx (shp exy) -> 0 <= exyf idx.
Proof. intros H. destruct (ex3 idx H) as [->|[->| ->]]; unfold exyf; cbn; lra. Qed.
Lemma exy_bright : brightest exy exyf 9.
Proof. split; [exists [2]%nat; split; [exact ex_in2|reflexivity]|]. intros idx H. destruct (ex3 idx H) as [->|[->| ->]]; unfold exyf; cbn; lra. Qed.
Lemma exneg_bright : brightest exneg exnegf 9.
Proof. split; [exists [2]%nat; split; [exact ex_in2|reflexivity]|]. intros idx H. destruct (ex3 idx H) as [->|[->| ->]]; unfold exnegf; cbn; lra. Qed.
