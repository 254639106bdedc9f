(** Property theorems C115: the scripts with the settings they are written with. *)
From Coq Require Import String Ascii List.
From Verif Require Import PyBase Num MMath MAperture MTel MRad MFs MAct MAux MOut MSim MTab MPlot MCore MScript SAux SSim SFit SOut SCore SScript STel SSetup PDemo PDemo2 PScript PMpi2 PSim3 PSimScript PSetup TScript.
Import ListNotations.
Open Scope R_scope.
Open Scope string_scope.
Open Scope list_scope.

(** C115. The telescope of pyoof_effelsberg.py is open where its name says. *)
Theorem C115_batch_telescope w : Forall2 (fun su t => su_name su = fst t /\ dish (su_tel su) (snd t)) (sc_setups (batch_script w)) [("effelsberg (10 deg blockage)", shadowed 10)].
Proof. constructor; [split; [reflexivity|apply effelsberg_dish; lra]|constructor]. Qed.
Print Assumptions C115_batch_telescope.
(** The five of pyoof_effelsberg_mpi.py; "no blockage" loses the centre of the dish. *)
Theorem C115_mpi_telescopes w : Forall2 (fun su t => su_name su = fst t /\ dish (su_tel su) (snd t)) (sc_setups (mpi_script w))
  [("effelsberg (20 deg blockage)", shadowed 20); ("effelsberg (10 deg blockage)", shadowed 10);
   ("effelsberg (0 deg blockage)", fun x y => annulus 50 (13 / 4) x y /\ ~ legs 1 (93 / 4) x y);
   ("effelsberg (sub-reflector only blockage)", annulus 50 (13 / 4)); ("effelsberg (no blockage)", fun x y => 0 < x ^ 2 + y ^ 2 < 50 ^ 2)].
Proof.
  constructor; [split; [reflexivity|apply effelsberg_dish; lra]|]. constructor; [split; [reflexivity|apply effelsberg_dish; lra]|].
  constructor; [split; [reflexivity|apply effelsberg_flat]|].
  constructor; [split; [reflexivity|cbn [snd]; replace (13 / 4) with (325 / 100) by lra; apply effelsberg_round]|].
  constructor; [split; [reflexivity|]|constructor]. apply (dish_iff _ (annulus 50 0)); [|apply effelsberg_round]. intros x y. cbn [snd]. unfold annulus. rewrite pow_i by lia. tauto.
Qed.
Print Assumptions C115_mpi_telescopes.
(** A batch of pyoof_effelsberg.py that ends has the orders 1 to 5 of every observation and no other. *)
Theorem C115_orders orc w cwd files stems s s' : file_tree s -> input_files cwd s files stems -> room (batch_script w) stems s ->
  run (batch orc (batch_script w) cwd files) s = (Ok tt, s') ->
  exists obs dirs, Forall2 (observed cwd s) files obs /\ NoDup dirs /\
    Forall2 (fun ob d => s d = None /\ csv_file s' d "beam_data.csv" ("Normalized beam " ^^ ob_name ob) (A2 (ob_beam ob)) /\
      forall n, (exists rows, fitpar_rows s' d n rows) <-> (1 <= n <= 5)%nat) obs dirs.
Proof. intros W. exact (orders_stored orc (batch_script w) cwd files stems _ s s' W ltac:(cbn; lia) eq_refl). Qed.
Print Assumptions C115_orders.
(** What pyoof_simulate_data.py shows is explained without residual by the coefficients, telescope,
    wavelength and offsets written in it (single precision taken as exact). *)
Theorem C115_simulation orc gd fmt cwd s ob fig s' : (forall x, so_f32 orc x = Fin x) -> file_tree s -> s (generated cwd 0) = None ->
  run (simulate_script orc gd fmt (sim_call cwd)) s = (Ok (ob, fig), s') ->
  exists tel U V n, dish tel (shadowed 10) /\ ob_u ob = map (map Fin) U /\ ob_v ob = map (map Fin) V /\ (0 < n)%nat /\ map (@length num) (ob_beam ob) = [n; n; n] /\
    ob_d_z ob = [- (22 / 1000); 0; 22 / 1000] /\ ob_wavel ob = 93685143125 / 10000000000000 /\
    residual_true illum_parabolic tel ([1; - (145 / 10); 2; 0; 0] ++ repeat (1 / 10) 21) (ob_beam ob) U V [- (22 / 1000); 0; 22 / 1000] (93685143125 / 10000000000000) 256 5 = Ok (repeat 0 (3 * n)).
Proof. exact (call_explained orc gd fmt cwd s ob fig s'). Qed.
Print Assumptions C115_simulation.
Example C115_nonvacuous : (exists s', run (batch demo_oracle (batch_script ["w"]) [] script_inputs) script_fs = (Ok tt, s') /\
    file_tree script_fs /\ input_files [] script_fs script_inputs ["a"; "b"; "c"] /\ room (batch_script ["w"]) ["a"; "b"; "c"] script_fs) /\
  (forall x, so_f32 demo_outside x = Fin x) /\ (exists ob fig s', run (simulate_script demo_outside flat_griddata (fun _ => "0") (sim_call [])) fresh_fs = (Ok (ob, fig), s')) /\
  (exists x y, annulus 50 (13 / 4) x y /\ ~ legs 1 (93 / 4) x y).
Proof.
  split; [destruct C80_nonvacuous as (s' & A & B & C & D & _); exists s'; auto|]. split; [reflexivity|]. split.
  - destruct C83_nonvacuous as (ob & fig & s' & A & _). exists ob, fig, s'. exact A.
  - exists 10, 10. unfold annulus, legs. split; [lra|]. rewrite (Rabs_right 10) by lra. lra.
Qed.
