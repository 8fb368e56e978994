(** C76: what AccuralDuration makes of periodicities. *)
From Verif Require Import Base M_Decimal L_Decimal M_Accrual.
From Coq Require Import ZArith Lia.
Open Scope Z_scope.

(** The periodicities of the Project Open Data schema that are recognised. *)
Definition periodicities : list bytes :=
  map (fun s => bs "R/P" ++ s)
    [bs "T1S"; bs "T1H"; bs "1D"; bs "3.5D"; bs "0.33W"; bs "1W"; bs "2W"; bs "0.33M"; bs "0.5M"; bs "1M"; bs "2M"; bs "3M"; bs "4M"; bs "6M";
     bs "1Y"; bs "2Y"; bs "3Y"; bs "4Y"; bs "10Y"].
(** [lasts u n]: the unit u lasts n nanoseconds, a month counting 30 days and a year 365. *)
Inductive lasts : bytes -> Z -> Prop :=
| la_day : lasts (bs "D") 86400000000000
| la_week : lasts (bs "W") (7 * 86400000000000)
| la_month : lasts (bs "M") (30 * 86400000000000)
| la_year : lasts (bs "Y") (365 * 86400000000000).

(** The duration is positive for these texts and zero for all others. *)
Theorem accrual_known : forall p, (0 < accrual_duration p <-> In p periodicities) /\ (accrual_duration p = 0 <-> ~ In p periodicities).
Proof.
  intros p. assert (A : In p periodicities -> 0 < accrual_duration p).
  { intros H. cbn in H. repeat (destruct H as [<-|H]; [reflexivity|]). contradiction. }
  assert (B : ~ In p periodicities -> accrual_duration p = 0).
  { intros H. unfold accrual_duration. destruct (find _ _) as [c|] eqn:E; [|reflexivity]. exfalso. apply H. apply find_some in E. destruct E as [Hc E].
    destruct (beqb_spec p (fst c)) as [->|]; [|discriminate]. clear - Hc. cbn in Hc. repeat (destruct Hc as [<-|Hc]; [vm_compute; tauto|]). contradiction. }
  assert (D : In p periodicities \/ ~ In p periodicities).
  { destruct (in_dec (list_eq_dec N.eq_dec) p periodicities); auto. }
  destruct D as [D|D]; [specialize (A D)|specialize (B D)]; intuition lia.
Qed.

(** A recognised whole number of units lasts that many times the unit, except for 2, 3 and 4 months. *)
Theorem accrual_whole : forall n u d, lasts u d -> let p := bs "R/P" ++ itoa n ++ u in
  In p periodicities -> ~ In p [bs "R/P2M"; bs "R/P3M"; bs "R/P4M"] -> accrual_duration p = n * d.
Proof.
  intros n u d Hu p Hp Hn.
  assert (U : exists c, u = [c]) by (destruct Hu; eexists; reflexivity). destruct U as [c ->].
  assert (K : forall s x, p = bs "R/P" ++ s ++ [x] -> c = x /\ Some n = parse_signed s).
  { intros s x E. unfold p in E. apply app_inv_head in E. apply app_inj_tail in E. destruct E as [E ->]. rewrite <- E, parse_signed_itoa. auto. }
  assert (X : forall s x k, p = bs "R/P" ++ s ++ [x] -> parse_signed s = Some k -> [c] = [x] /\ n = k).
  { intros s x k E1 E2. destruct (K s x E1) as [-> E]. rewrite E2 in E. injection E as ->. auto. }
  assert (W : forall s x, p = bs "R/P" ++ s ++ [x] -> parse_signed s = None -> False).
  { intros s x E1 E2. destruct (K s x E1) as [_ E]. congruence. }
  clearbody p. cbn [periodicities map In] in Hp.
  repeat destruct Hp as [Hp|Hp]; try contradiction; symmetry in Hp;
    try (exfalso; apply Hn; rewrite Hp; cbn; tauto);
    try (exfalso; match type of Hp with _ = bs "R/P" ++ ?t => eapply (W (removelast t) (last t 0%N)) end; [rewrite Hp; reflexivity|reflexivity]);
    (match type of Hp with _ = bs "R/P" ++ ?t => destruct (X (removelast t) (last t 0%N) (match parse_signed (removelast t) with Some k => k | None => 0 end)) as [E1 E2]; [rewrite Hp; reflexivity|reflexivity|] end);
    vm_compute in E1, E2; subst n; rewrite E1 in Hu; clear - Hu Hp; subst p; inversion Hu; reflexivity.
Qed.
(** The recognised parts of units: a third of a week or a month, half a month, an hour and a second are what they say. *)
Theorem accrual_parts : 3 * accrual_duration (bs "R/P0.33W") = accrual_duration (bs "R/P1W") /\
  3 * accrual_duration (bs "R/P0.33M") = accrual_duration (bs "R/P1M") /\ 2 * accrual_duration (bs "R/P0.5M") = accrual_duration (bs "R/P1M") /\
  24 * accrual_duration (bs "R/PT1H") = accrual_duration (bs "R/P1D") /\ 3600 * accrual_duration (bs "R/PT1S") = accrual_duration (bs "R/PT1H").
Proof. repeat split. Qed.
(** That a longer period has a longer duration is false: 2 months last longer than 6 months, 3 months less than 2; twice a week
    means every 4 days. *)
Theorem accrual_order_refuted : accrual_duration (bs "R/P6M") < accrual_duration (bs "R/P2M") /\ accrual_duration (bs "R/P3M") < accrual_duration (bs "R/P2M") /\
  accrual_duration (bs "R/P4M") < accrual_duration (bs "R/P2M") /\ 2 * accrual_duration (bs "R/P3.5D") > accrual_duration (bs "R/P1W").
Proof. repeat split. Qed.
Example accrual_ex : accrual_duration (bs "R/P10Y") = 10 * accrual_duration (bs "R/P1Y") /\ accrual_duration (bs "R/P5Y") = 0 /\ accrual_duration (bs "P1Y") = 0 /\
  bs "R/P10Y" = bs "R/P" ++ itoa 10 ++ bs "Y" /\ In (bs "R/P10Y") periodicities.
Proof. repeat split. vm_compute. tauto. Qed.
Print Assumptions accrual_known.
Print Assumptions accrual_whole.
Print Assumptions accrual_parts.
Print Assumptions accrual_order_refuted.
