(** From a netlist with named wires to the circuit the programs run. *)
From Coq Require Import ZArith NArith List Bool Lia Ascii String.
From Verif Require Import Base Gate Circuit Spec Plain Sort SortOk Text Netlist NetlistOk Scd.
Import ListNotations.
Open Scope Z_scope.

(** scd/v_2_scd.cpp:37-57 (70-90 for Bristol netlists): what Verilog2SCD does with a
    parsed netlist.  [None] undefined behaviour, [Some None] FAILURE, otherwise the
    text of the SCD file (the mapping file is in MapFile.v). *)
Definition translate (log : bool) (s : ReadCircuitString) : option (option text) :=
  match IdAssignment log s with
  | None => Some None
  | Some rc =>
    do r <- SortNetlist log rc;
    match r with
    | None => Some None
    | Some rc' => do file <- WriteSCD rc'; Some (Some file)
    end
  end.

Lemma sorted_fits rc p q : translatable rc -> renumbering rc p q ->
  (forall g, In g (gate_list rc) \/ In g (dff_list rc) -> - 2 ^ 63 <= rg_in0 g /\ - 2 ^ 63 <= rg_in1 g) ->
  Z.of_nat (init_input_dff_size rc + List.length (gate_list rc)) < 2 ^ 63 -> u64 (List.length (output_list rc)) ->
  fits (sorted_circuit rc p q) (sorted_gates rc p q).
Proof.
  intros TR RN LO N UO.
  assert (P : forall w, - 2 ^ 63 <= w -> w < Z.of_nat (init_input_dff_size rc + List.length (gate_list rc)) -> i64 (p w) /\ (0 <= w -> 0 <= p w)).
  { intros w L H. destruct (Z.lt_ge_cases w 0) as [X|X].
    - destruct (rn_neg _ _ _ RN w X) as [-> _]. unfold i64. lia.
    - destruct (rn_range _ _ _ RN w) as [X1 _]; unfold i64; lia. }
  assert (D2 : forall d, In d (dff_list (sorted_circuit rc p q)) -> i64 (rg_in0 d) /\ i64 (rg_in1 d)).
  { intros d H. cbn [dff_list sorted_circuit] in H. apply in_map_iff in H as (d0 & <- & H). cbn [rg_in0 rg_in1].
    destruct (tr_dff _ TR d0 H) as ([R0 _] & R1 & _). destruct (LO d0 (or_intror H)). split; apply P; auto. }
  unfold init_input_dff_size, get_init_input_size in N. unfold u64 in *.
  split.
  - unfold u64. cbn [rc_p_init rc_g_init rc_e_init rc_p_input rc_g_input rc_e_input dff_list output_list gate_list sorted_circuit].
    rewrite !map_length, combine_seq_length. repeat split; lia.
  - rewrite sorted_gates_length. cbn. rewrite map_length, combine_seq_length. reflexivity.
  - intros g H. apply In_nth_error in H as [k H].
    assert (K : (k < List.length (gate_list rc))%nat) by (rewrite <- (sorted_gates_length rc p q); eapply nth_error_lt; eauto).
    destruct (sched_index rc p q RN k K) as (i & g0 & EQ & EG & EP).
    assert (EI : g = mkRG (p (rg_in0 g0)) (p (rg_in1 g0)) (Z.of_nat (init_input_dff_size rc) + Z.of_nat k) (rg_type g0)).
    { unfold sorted_gates in H. rewrite nth_error_map, (nth_error_nth' _ 0%nat), seq_nth in H by (rewrite ?seq_length; auto). cbn [option_map] in H.
      rewrite Nat.add_0_l, EQ in H. replace (Z.to_nat (Z.of_nat (init_input_dff_size rc) + Z.of_nat i - Z.of_nat (init_input_dff_size rc))) with i in H by lia.
      rewrite EG in H. injection H as <-. reflexivity. }
    subst g. cbn [rg_in0 rg_in1 rg_type]. pose proof (nth_error_In _ _ EG) as G. destruct (tr_gate _ TR g0 G) as ([f FT] & [R0 _] & [R1 _]).
    destruct (LO g0 (or_introl G)). split; [apply P; auto|]. split; [apply P; auto|].
    assert (0 <= rg_type g0 <= 14); [|lia].
    assert (B : 0 <= rg_type g0 <= 14 \/ ~ (0 <= rg_type g0 <= 14)) by lia. destruct B as [B|B]; [exact B|exfalso].
    unfold bool_fun in FT. destruct (rg_type g0) as [|t|t]; [discriminate| |discriminate].
    do 4 (destruct t as [t|t|]; try discriminate; try lia).
  - exact D2.
  - intros w H. cbn [output_list sorted_circuit] in H. apply in_map_iff in H as (o & <- & H). destruct (tr_out _ TR o H) as ([A _] & B).
    destruct (P o) as [X Y]; [lia|auto|]. unfold i64 in X. lia.
  - cbn [rc_terminate_id sorted_circuit]. destruct (tr_term _ TR) as [->|[[A _] B]].
    + pose proof (tr_some _ TR). destruct (rn_low _ _ _ RN 0) as [-> _]; lia.
    + destruct (P (rc_terminate_id rc)) as [X Y]; [lia|auto|]. unfold i64 in X. lia.
Qed.

(** Fewer than 2^63 wires and 2^64 outputs. *)
Definition small (s : ReadCircuitString) : Prop :=
  Z.of_nat (s_p_init s + s_g_init s + s_e_init s + s_p_input s + s_g_input s + s_e_input s +
            List.length (dff_list_string s) + List.length (gate_list_string s)) < 2 ^ 63 /\
  Z.of_nat (s_output s) < 2 ^ 64.

(** The circuit [c] computes what the netlist [s] says. *)
Record implements (c : GarbledCircuit) (s : ReadCircuitString) : Prop := {
  im_wf : well_formed c;
  im_sizes : p_init_size c = s_p_init s /\ g_init_size c = s_g_init s /\ e_init_size c = s_e_init s /\
             p_input_size c = s_p_input s /\ g_input_size c = s_g_input s /\ e_input_size c = s_e_input s /\
             List.length (outputs c) = s_output s /\
             List.length (D c) = List.length (dff_list_string s) /\ List.length (garbledGates c) = List.length (gate_list_string s);
  im_term : terminate_id c = 0 <-> has_terminate s = false;
  im_some : forall x, exists U, net_consistent s x U;
  im_values : forall x U V, net_consistent s x U -> consistent c x V -> forall cy,
    (forall i n, (i < s_output s)%nat -> output_name s i n -> exists w, nth_error (outputs c) i = Some w /\ V cy w = U cy n) /\
    (has_terminate s = true -> V cy (terminate_id c) = U cy "terminate"%string) }.

Lemma id_ge s n : well_named s -> In (root_of s n) (declared s) -> -3 <= id s n.
Proof.
  intros WN D. pose proof (id_in s n D) as I. unfold ids in I. rewrite !in_app_iff in I. pose proof (fdff_ge s).
  destruct I as [I|[I|[[I|I]|I]]]; [apply init_range in I|apply input_range in I|apply dff_range in I|apply gate_range in I|apply const_range in I]; lia.
Qed.

Lemma numbered_fits s p q : well_named s -> small s -> translatable (numbered s) -> renumbering (numbered s) p q ->
  fits (sorted_circuit (numbered s) p q) (sorted_gates (numbered s) p q).
Proof.
  intros WN SM TR RN. apply sorted_fits; auto.
  - intros g [H|H]; cbn [gate_list dff_list numbered] in H; apply in_map_iff in H as (g0 & <- & H); cbn [rg_in0 rg_in1 num_gate].
    + destruct (wn_gate _ WN g0 H) as [_ R].
      pose proof (id_ge s (gs_in0 g0) WN ltac:(apply in_declared3; apply R; auto)).
      pose proof (id_ge s (gs_in1 g0) WN ltac:(apply in_declared3; apply R; auto)). lia.
    + destruct (wn_dff _ WN g0 H) as [R0 R1].
      pose proof (id_ge s (gs_in0 g0) WN ltac:(apply in_declared3; exact R0)).
      pose proof (id_ge s (gs_in1 g0) WN ltac:(apply part_declared; apply in_app_or in R1; tauto)). lia.
  - destruct SM as [SM _]. rewrite numbered_n. unfold fdff. lia.
  - unfold u64. cbn. rewrite map_length, seq_length. destruct SM. lia.
Qed.

Theorem translate_reads s : well_named s -> small s -> ~ combinational_loop s ->
  exists file c, (forall log, translate log s = Some (Some file)) /\ (forall junk, ReadSCD junk file = c) /\ implements c s.
Proof.
  intros WN SM NL. pose proof (numbered_translatable s WN NL) as TR.
  destruct (sort_netlist_meaning _ TR) as (rc' & gs & ES & EG & WF & Z1 & Z2 & Z3 & Z4 & Z5 & Z6 & LD & LG & LO & TM & MN).
  assert (F : fits rc' gs).
  { destruct (sort_netlist_is _ TR false) as (p & q & RN & E). rewrite (ES false) in E. injection E as ->.
    rewrite (scheduled_is _ p q RN) in EG. injection EG as <-. apply numbered_fits; auto. }
  destruct (scd_round_trip rc' gs (fun _ _ => 0) EG F) as (file & EF & _).
  exists file, (circuit_with rc' gs). split; [|split].
  - intros log. unfold translate. rewrite (IdAssignment_is s WN log), ES. cbn [obind]. rewrite EF. reflexivity.
  - intros junk. destruct (scd_round_trip rc' gs junk EG F) as (file' & EF' & ER). rewrite EF in EF'. injection EF' as <-. exact ER.
  - split.
    + exact WF.
    + cbn [output_list numbered] in LO. rewrite map_length, seq_length in LO. cbn [dff_list numbered] in LD. rewrite map_length in LD.
      cbn [gate_list numbered] in LG. rewrite map_length in LG. repeat split; assumption.
    + rewrite TM. cbn [rc_terminate_id numbered]. destruct (has_terminate s) eqn:HT; [|tauto].
      destruct (terminate_pos s WN HT). split; [lia|discriminate].
    + intros x. destruct (MN x) as [[W C] _]. eexists. apply (num_to_net s WN x W C).
    + intros x U V NC C cy. destruct (MN x) as [_ M]. destruct (M V _ C (net_to_num s WN x U NC) cy) as [MO MT]. split.
      * intros i n Hi ON.
        assert (EN : n = out_nm s i).
        { eapply output_name_unique; [exact ON|apply out_nm_is; auto| |].
          - apply part_declared. pose proof (wn_out _ WN i n Hi ON) as Q. apply in_app_or in Q. tauto.
          - apply part_declared. pose proof (wn_out _ WN i _ Hi (out_nm_is s WN i Hi)) as Q. apply in_app_or in Q. tauto. }
        subst n. destruct (MO i (id s (out_nm s i))) as (w & EW & EV).
        { cbn [output_list numbered]. rewrite nth_error_map, (nth_error_nth' _ 0%nat), seq_nth by (rewrite ?seq_length; auto). reflexivity. }
        exists w. split; [exact EW|]. rewrite EV. pose proof (out_nm_declared s WN i Hi) as OD.
        assert (ID : 0 <= id s (out_nm s i)).
        { pose proof (fdff_ge s). apply in_app_or in OD as [Q|Q]; [apply (id_input s WN) in Q|apply (id_cell s WN) in Q]; lia. }
        rewrite <- (W_operand s WN x U NC cy (out_nm s i)) by (rewrite !in_app_iff in *; tauto).
        unfold operand. destruct (Z.eqb_spec (id s (out_nm s i)) (-3)); [lia|]. destruct (Z.ltb_spec (id s (out_nm s i)) 0); [lia|reflexivity].
      * intros HT. cbn [rc_terminate_id numbered] in MT. rewrite HT in MT. destruct (terminate_pos s WN HT) as [_ P]. rewrite MT by lia.
        destruct (wn_term _ WN HT) as [CT _].
        rewrite <- (W_operand s WN x U NC cy "terminate") by (rewrite !in_app_iff in *; tauto).
        unfold operand. destruct (Z.eqb_spec (id s "terminate") (-3)); [lia|]. destruct (Z.ltb_spec (id s "terminate") 0); [lia|reflexivity].
Qed.
Theorem translate_ok s : well_named s -> small s -> ~ combinational_loop s ->
  exists file, (forall log, translate log s = Some (Some file)) /\ forall junk, implements (ReadSCD junk file) s.
Proof. intros WN SM NL. destruct (translate_reads s WN SM NL) as (f & c & T & R & M). exists f. split; [exact T|]. intros junk. rewrite R. exact M. Qed.

(** With a combinational loop the translator reports FAILURE. *)
Theorem translate_loop s : well_named s -> combinational_loop s -> forall log, translate log s = Some None.
Proof.
  intros WN L log. unfold translate. rewrite (IdAssignment_is s WN log). unfold SortNetlist.
  rewrite (proj2 (proj1 (topological_sort_iff _ (numbered_range s WN))) (proj2 (loop_iff s WN) L)). reflexivity.
Qed.
