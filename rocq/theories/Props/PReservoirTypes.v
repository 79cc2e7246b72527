(** C89: the reservoir a compass is created with. *)
From Verif.Go Require Import GoInt GoFloat GoConc GoCompose.
From Verif.Model Require Import Config Registry BucketCounter BucketCounterConc UniformReservoir ReservoirConc DecayingReservoir DecayingConc Compass CompassConc CompassFine SystemConc.
From Verif.Spec Require Import ConfigSpec SystemSpec.
Local Open Scope Z_scope.

(** C89: [reservoirs o] are the reservoirs among the objects of a metric (Spec/SystemSpec.v).  Which reservoir a compass of any type a configuration may name begins with: type 0 a
    bucket reservoir (a counter of the values, with the compass's interval and number of
    buckets), type 1 an empty uniform reservoir for 1024 values, any other an empty
    exponentially decaying one for 1028 values with alpha 0.015; and no other reservoir. *)
Theorem C89_types ref p e o : new_metric (MCompass ref p) e = Some o ->
  (cpp_reservoirType p = 0 -> exists b, newBucketCounterImpl (cpp_bucketInterval p) (cpp_numOfBucket p) (ce_ms e) true = Ok (bs_bc b) /\ reservoirs o = Some [(KValues, OCounter b)]) /\
  (cpp_reservoirType p = 1 -> exists u, rs_rsv u = UniformReservoir 0 (replicate 1024 0) /\ reservoirs o = Some [(KUniform, OUniform u)]) /\
  (cpp_reservoirType p <> 0 -> cpp_reservoirType p <> 1 -> exists d, ds_rsv d = NewEDR 1028 (fdiv (f_of_int 15) (f_of_int 1000)) (ce_ms e) (ce_tick e) /\ reservoirs o = Some [(KReservoir, OReservoir d)]).
Proof.
  intros H. cbn [new_metric] in H. cbv zeta in H. unfold cf_objs0, new_counter in H. destruct (newBucketCounterImpl _ _ _ _) as [b|] eqn:Eb; [|discriminate H].
  injection H as <-. cbn [reservoirs gs_objs]. unfold reservoir_of, BucketReservoirType, UniformReservoirType.
  split; [|split].
  - intros Ht. rewrite Ht. exists (BcShared b (wrap64 (ce_ms e))). split; reflexivity.
  - intros Ht. rewrite Ht. eexists. split; [|reflexivity]. reflexivity.
  - intros H0 H1. apply Z.eqb_neq in H0, H1. rewrite H0, H1. eexists. split; [|reflexivity]. reflexivity.
Qed.
Print Assumptions C89_types.

(** One compass of each type. *)
Example C89_types_case : (fun t => (fun o => length <$> reservoirs o) <$> new_metric (MCompass 0 (CompassParams t 10 (seconds 1) 20 20)) (CEnv 5000000000 5000 f0 [])) <$> [0; 1; 2; 7] = [Some (Some 1%nat); Some (Some 1%nat); Some (Some 1%nat); Some (Some 1%nat)].
Proof. vm_compute. reflexivity. Qed.
