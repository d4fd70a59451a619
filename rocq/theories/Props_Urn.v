(** Properties C07-C11: CTS URNs. *)

From Coq Require Import List NArith Arith.
From Verif Require Import PyStr PyStrFacts RefModel UrnModel UrnSpec UrnProofs.
Import ListNotations.

(** C07.  [before_hash] is the text up to the first '#'. *)
Theorem C07_accepts : forall s,
  let before_hash := hd [] (split c_hash s) in
  (exists u, urn_parse s = Ok u) <->
  2 <= count c_colon before_hash /\
  ~ (exists p1 p2 p3 p4 a b c,
       before_hash = p1 ++ [c_colon] ++ p2 ++ [c_colon] ++ p3 ++ [c_colon] ++ p4 ++ [c_colon] ++
                     (a ++ [c_dash] ++ b ++ [c_dash] ++ c) /\
       count c_colon before_hash = 4).
Proof. exact urn_parse_accepts. Qed.
Print Assumptions C07_accepts.

Theorem C07_only_ValueError : forall s e, urn_parse s = Err e -> e = ValueError.
Proof. exact urn_parse_err. Qed.
Print Assumptions C07_only_ValueError.

Theorem C07_lossless : forall s u, urn_parse s = Ok u ->
  exists base, to_str u = Ok base /\ ~ In c_hash base /\
    (s = base \/ exists t, s = base ++ [c_hash] ++ t).
Proof.
  exact (fun s u H => ex_intro _ _ (conj (urn_parse_str s u H) (hd_split_base s))).
Qed.
Print Assumptions C07_lossless.

Example C07_example :
  (exists u, urn_parse #"urn:cts:latinLit:phi1294.phi002:1.1#note" = Ok u /\
     to_str u = Ok #"urn:cts:latinLit:phi1294.phi002:1.1") /\
  urn_parse #"urn:cts" = Err ValueError /\
  urn_parse #"urn:cts:a:b.c:1-2-3" = Err ValueError /\
  (exists u, urn_parse #"urn:cts:a:b.c:1-2-3:x" = Ok u /\ u_ref u = None).
Proof. repeat split; try (eexists; vm_compute; auto); vm_compute; reflexivity. Qed.

(** C08. *)
Theorem C08_components : forall ns cts p r u,
  plain_ns ns -> plain_ns cts -> plain_part p -> written_ref p r ->
  urn_parse (write_urn ns cts p r) = Ok u ->
  u_ns u = Some ns /\ u_cts u = Some cts /\ u_tg u = part_tg p /\ u_wk u = part_wk p /\
  u_vs u = part_vs p /\ option_map r_str (u_ref u) = r /\ urn_len u = 2 + part_size p.
Proof. exact components_read_back. Qed.
Print Assumptions C08_components.

Theorem C08_composition_accepted : forall ns cts p r,
  plain_ns ns -> plain_ns cts -> plain_part p -> written_ref p r ->
  match r with Some r => count c_dash r <= 1 | None => True end ->
  exists u, urn_parse (write_urn ns cts p r) = Ok u.
Proof. exact components_accepted. Qed.
Print Assumptions C08_composition_accepted.

Example C08_example :
  write_urn #"cts" #"latinLit" (Version #"phi1294" #"phi002" #"perseus-lat2") (Some #"1.1-1.2")
    = #"urn:cts:latinLit:phi1294.phi002.perseus-lat2:1.1-1.2" /\
  plain_part (Version #"phi1294" #"phi002" #"perseus-lat2") /\ plain_ref #"1.1-1.2" /\
  plain_ns #"cts" /\ plain_ns #"latinLit".
Proof.
  split; [reflexivity|]. unfold plain_part, plain_comp, plain_ref, plain_ns.
  repeat split; try discriminate; vm_compute; intuition discriminate.
Qed.

(** Finding: components after the third one are dropped. *)
Theorem C08_fourth_component_lost : exists s u,
  urn_parse s = Ok u /\ s = #"urn:cts:l:a.b.c.d" /\ urn_upto VERSION u = Ok #"urn:cts:l:a.b.c".
Proof. eexists; eexists; split; [|split; [reflexivity|]]; vm_compute; reflexivity. Qed.
Print Assumptions C08_fourth_component_lost.

(** Finding, for every such URN: whatever follows the third component is printed, but no
    component holds it; every truncation is without it; and it is gone from what is printed
    as soon as anything is assigned, be it what was there. *)
Theorem C08_further_components_lost : forall ns cts tg wk vs more,
  plain_ns ns -> plain_ns cts -> plain_part (Version tg wk vs) -> ~ In c_colon more -> ~ In c_hash more ->
  let s := write_urn ns cts (Version tg wk vs) None in
  exists u, urn_parse (s ++ [c_dot] ++ more) = Ok u /\ to_str u = Ok (s ++ [c_dot] ++ more) /\
    u_ns u = Some ns /\ u_cts u = Some cts /\ u_tg u = Some tg /\ u_wk u = Some wk /\ u_vs u = Some vs /\ u_ref u = None /\
    urn_upto VERSION u = Ok s /\ urn_upto NO_PASSAGE u = Ok s /\
    forall h, Forall (reassign_op u) h -> existsb is_set_op h = true -> to_str (urn_run u h) = Ok s.
Proof.
  intros ns cts tg wk vs more (N1 & N2 & N3) (C1 & C2 & C3) ((T1 & T2 & T3 & T4) & (W1 & W2 & W3 & W4) & (V1 & V2 & V3 & V4)) M1 M2 s.
  assert (Es : s ++ [c_dot] ++ more = #"urn" ++ c_colon :: ns ++ c_colon :: cts ++ c_colon :: (tg ++ c_dot :: wk ++ c_dot :: vs ++ c_dot :: more)).
  { unfold s, write_urn, write_part. rewrite app_nil_r. rewrite <- !app_assoc. reflexivity. }
  assert (H : mem c_hash (s ++ [c_dot] ++ more) = false).
  { rewrite Es. apply mem_c. intros X. repeat (progress (rewrite ?in_app_iff in X; cbn [In] in X)). repeat destruct X as [X|X]; try discriminate; try contradiction; cbn in X; intuition discriminate. }
  assert (P : urn_parse (s ++ [c_dot] ++ more) =
    Ok (MkUrn (Some (s ++ [c_dot] ++ more)) (Some ns) (Some cts) (Some tg) (Some wk) (Some vs) None)).
  { unfold urn_parse. rewrite not_hash_split by exact H. rewrite Es at 1.
    rewrite split_app_sep by reflexivity. rewrite split_app_sep by (apply mem_c; exact N2). rewrite split_app_sep by (apply mem_c; exact C2).
    rewrite (split_no_sep c_colon).
    - cbn [bind]. rewrite split_app_sep by (apply mem_c; exact T4). rewrite split_app_sep by (apply mem_c; exact W4). rewrite split_app_sep by (apply mem_c; exact V4). reflexivity.
    - apply mem_c. intros X. repeat (progress (rewrite ?in_app_iff in X; cbn [In] in X)). repeat destruct X as [X|X]; try discriminate; contradiction. }
  eexists. split; [exact P|]. split; [reflexivity|]. do 6 (split; [reflexivity|]).
  assert (V : forall k, k = VERSION \/ k = NO_PASSAGE ->
    urn_upto k (MkUrn (Some (s ++ [c_dot] ++ more)) (Some ns) (Some cts) (Some tg) (Some wk) (Some vs) None) = Ok s).
  { intros k Hk. destruct tg as [|t0 tg]; [contradiction|]. destruct wk as [|w0 wk]; [contradiction|]. destruct vs as [|v0 vs]; [contradiction|].
    unfold s, write_urn, write_part. destruct Hk as [-> | ->]; cbn; rewrite ?app_nil_r, <- ?app_assoc; cbn; rewrite <- ?app_assoc; reflexivity. }
  split; [apply V; auto|]. split; [apply V; auto|]. intros h Hh Hs.
  rewrite (history_canonical _ _ h P), Hs. destruct (reassign_fields h _ Hh) as (F1 & F2 & F3 & F4 & F5 & F6).
  destruct (run_fields h (MkUrn (Some (s ++ [c_dot] ++ more)) (Some ns) (Some cts) (Some tg) (Some wk) (Some vs) None)) as (G1 & G2 & G3 & G4 & G5 & G6).
  rewrite <- G1, <- G2, <- G3, <- G4, <- G5, <- G6, F1, F2, F3, F4, F5, F6. cbn [u_ns u_cts u_tg u_wk u_vs u_ref].
  destruct cts as [|c0 cts]; [contradiction|]. destruct tg as [|t0 tg]; [contradiction|]. destruct wk as [|w0 wk]; [contradiction|]. destruct vs as [|v0 vs]; [contradiction|].
  unfold canonical, s, write_urn, write_part. cbn. rewrite ?app_nil_r, <- ?app_assoc. cbn. rewrite <- ?app_assoc. reflexivity.
Qed.
Print Assumptions C08_further_components_lost.

(** C09. *)
Theorem C09_truncation : forall ns cts p r u k n s,
  plain_ns ns -> plain_ns cts -> plain_part p -> written_ref p r ->
  urn_parse (write_urn ns cts p r) = Ok u -> cut_of k = Some n ->
  urn_upto k u = Ok s ->
  s = write_urn ns cts (cut_part n p) None /\
  (exists t, write_urn ns cts p r = s ++ t) /\
  exists u', urn_parse s = Ok u' /\
    u_ns u' = Some ns /\ u_cts u' = Some cts /\
    u_tg u' = (if Nat.leb 1 n then part_tg p else None) /\
    u_wk u' = (if Nat.leb 2 n then part_wk p else None) /\
    u_vs u' = (if Nat.leb 3 n then part_vs p else None) /\
    u_ref u' = None /\ to_str u' = Ok s /\ urn_upto k u' = Ok s.
Proof. exact upto_truncates. Qed.
Print Assumptions C09_truncation.

Theorem C09_absent_component : forall ns cts p r u,
  plain_ns ns -> plain_ns cts -> plain_part p -> written_ref p r ->
  urn_parse (write_urn ns cts p r) = Ok u ->
  (exists s, urn_upto NAMESPACE u = Ok s) /\ (exists s, urn_upto COMPLETE u = Ok s) /\
  (if Nat.leb 1 (part_size p) then exists s, urn_upto TEXTGROUP u = Ok s else urn_upto TEXTGROUP u = Err KeyError) /\
  (if Nat.leb 2 (part_size p) then exists s, urn_upto WORK u = Ok s else urn_upto WORK u = Err KeyError) /\
  (if Nat.leb 2 (part_size p) then exists s, urn_upto NO_PASSAGE u = Ok s else urn_upto NO_PASSAGE u = Err KeyError) /\
  (if Nat.leb 3 (part_size p) then exists s, urn_upto VERSION u = Ok s else urn_upto VERSION u = Err KeyError).
Proof. exact upto_needs. Qed.
Print Assumptions C09_absent_component.

Theorem C09_passage_keys : forall ns cts p r u,
  plain_ns ns -> plain_ns cts -> plain_part p -> written_ref p r ->
  urn_parse (write_urn ns cts p r) = Ok u ->
  match r with
  | None => urn_upto PASSAGE u = Err KeyError /\ urn_upto PASSAGE_START u = Err KeyError /\
            urn_upto PASSAGE_END u = Err KeyError
  | Some r =>
      urn_upto PASSAGE u = Ok (write_urn ns cts p (Some r)) /\
      (forall a b, r = a ++ [c_dash] ++ b -> ~ In c_dash a -> ~ In c_dash b ->
         urn_upto PASSAGE_START u = Ok (write_urn ns cts p (Some a)) /\
         (exists t, write_urn ns cts p (Some r) = write_urn ns cts p (Some a) ++ t) /\
         urn_upto PASSAGE_END u = Ok (write_urn ns cts p (Some b))) /\
      (~ In c_dash r ->
         urn_upto PASSAGE_START u = Ok (write_urn ns cts p (Some r)) /\
         urn_upto PASSAGE_END u = Err KeyError)
  end.
Proof. exact upto_passages. Qed.
Print Assumptions C09_passage_keys.

Example C09_example : exists u,
  urn_parse #"urn:cts:latinLit:phi1294.phi002.perseus-lat2:1.1-1.2" = Ok u /\
  urn_upto WORK u = Ok #"urn:cts:latinLit:phi1294.phi002" /\
  urn_upto PASSAGE_START u = Ok #"urn:cts:latinLit:phi1294.phi002.perseus-lat2:1.1" /\
  urn_upto PASSAGE_END u = Ok #"urn:cts:latinLit:phi1294.phi002.perseus-lat2:1.2".
Proof. eexists; vm_compute; auto. Qed.

(** Finding: the scheme is not checked, so a truncation need not be a prefix. *)
Theorem C09_prefix_refuted : exists s u b,
  urn_parse s = Ok u /\ urn_upto NAMESPACE u = Ok b /\ ~ exists t, s = b ++ t.
Proof.
  exists #"doi:cts:l". eexists; eexists. split; [vm_compute; reflexivity|]. split; [vm_compute; reflexivity|].
  intros [t H]; discriminate H.
Qed.
Print Assumptions C09_prefix_refuted.

(** The truncations begin with the text urn: whatever the URN began with; they are
    prefixes of it exactly if it begins so, too. *)
Theorem C09_scheme : forall s u b, urn_parse s = Ok u -> urn_upto NAMESPACE u = Ok b ->
  ((exists t, s = b ++ t) <-> exists t, s = #"urn:" ++ t).
Proof.
  intros s u b Hu Hb.
  assert (E : exists p ns cts rest, split c_colon (hd [] (split c_hash s)) = p :: ns :: cts :: rest /\ u_ns u = Some ns /\ u_cts u = Some cts).
  { unfold urn_parse in Hu. destruct (split c_colon (hd [] (split c_hash s))) as [|p [|ns [|cts rest]]]; try discriminate.
    exists p, ns, cts, rest. split; [reflexivity|].
    destruct (match rest with [_; r] => cts_reference (VStr r) | _ => Ok None end) as [o|e]; [|discriminate]. cbn [bind] in Hu.
    destruct rest; injection Hu as <-; split; reflexivity. }
  destruct E as (p & ns & cts & rest & E & E1 & E2). cbn [urn_upto] in Hb. unfold join_opt in Hb. rewrite E1, E2 in Hb. cbn [some_all bind] in Hb. injection Hb as <-.
  split.
  - intros (t & ->). eexists. cbn. reflexivity.
  - intros (t & Ht).
    assert (B : exists rest', hd [] (split c_hash s) = #"urn" ++ c_colon :: rest').
    { subst s. destruct (split_cons c_hash t) as (q & qs & Eq). exists q. cbn. rewrite Eq. reflexivity. }
    destruct B as (rest' & B). rewrite B, split_app_sep in E by reflexivity. injection E as Ep E.
    assert (Hp : exists t', s = hd [] (split c_hash s) ++ t').
    { destruct (hd_split_prefix c_hash s) as [[_ X]|(t' & X & _)]; [exists []; rewrite app_nil_r; symmetry; exact X|eexists; exact X]. }
    destruct Hp as (t' & Hp). pose proof (join_split c_colon rest') as J. rewrite E in J.
    assert (K : exists t2, rest' = ns ++ [c_colon] ++ cts ++ t2).
    { destruct rest as [|x rest]; [exists []; rewrite app_nil_r; symmetry; exact J|].
      exists ([c_colon] ++ join [c_colon] (x :: rest)). symmetry. exact J. }
    destruct K as (t2 & K). exists (t2 ++ t'). rewrite Hp at 1. rewrite B, K. cbn. rewrite <- !app_assoc. cbn. rewrite <- ?app_assoc. reflexivity.
Qed.
Print Assumptions C09_scheme.

(** C10. *)
Theorem C10_history_components : forall h u,
  u_ns (urn_run u h) = last_ns h (u_ns u) /\ u_cts (urn_run u h) = last_cts h (u_cts u) /\
  u_tg (urn_run u h) = last_tg h (u_tg u) /\ u_wk (urn_run u h) = last_wk h (u_wk u) /\
  u_vs (urn_run u h) = last_vs h (u_vs u) /\ u_ref (urn_run u h) = last_ref h (u_ref u).
Proof. exact run_fields. Qed.
Print Assumptions C10_history_components.

Theorem C10_history_str : forall s u h, urn_parse s = Ok u ->
  to_str (urn_run u h) =
    if existsb is_set_op h
    then match last_ns h (u_ns u) with
         | Some ns => Ok (canonical ns (last_cts h (u_cts u)) (last_tg h (u_tg u)) (last_wk h (u_wk u))
                            (last_vs h (u_vs u)) (last_ref h (u_ref u)))
         | None => Err TypeError
         end
    else Ok (hd [] (split c_hash s)).
Proof. exact history_canonical. Qed.
Print Assumptions C10_history_str.

(** The truncations after any history: written with what was assigned last, a KeyError
    without the component they end at, and never a text when a namespace is missing, nor,
    for the work, when the textgroup is. *)
Theorem C10_history_upto : forall u h, let v := urn_run u h in
  let ns := last_ns h (u_ns u) in let cts := last_cts h (u_cts u) in
  let tg := last_tg h (u_tg u) in let wk := last_wk h (u_wk u) in let vs := last_vs h (u_vs u) in
  let r := last_ref h (u_ref u) in
  let text := join #"." (flat_map (fun o => match o with Some s => [s] | None => [] end) [tg; wk; vs]) in
  match ns, cts with
  | Some ns, Some cts =>
      let upto := fun rest => Ok (#"urn:" ++ ns ++ #":" ++ cts ++ rest) in
      urn_upto NAMESPACE v = upto [] /\
      urn_upto TEXTGROUP v = match tg with Some (c :: t) => upto (#":" ++ c :: t) | _ => Err KeyError end /\
      urn_upto WORK v = match wk with
                        | Some (c :: w) => match tg with Some t => upto (#":" ++ t ++ #"." ++ c :: w) | None => Err TypeError end
                        | _ => Err KeyError end /\
      urn_upto VERSION v = match vs with Some (_ :: _) => upto (#":" ++ text) | _ => Err KeyError end /\
      urn_upto NO_PASSAGE v = match wk with Some (_ :: _) => upto (#":" ++ text) | _ => Err KeyError end /\
      urn_upto PASSAGE v = match r with Some r => upto (#":" ++ text ++ #":" ++ r_str r) | None => Err KeyError end /\
      urn_upto PASSAGE_START v = match r with Some r => upto (#":" ++ text ++ #":" ++ r_start r) | None => Err KeyError end /\
      urn_upto PASSAGE_END v = match r with
                               | Some r => match r_end r with Some e => upto (#":" ++ text ++ #":" ++ e) | None => Err KeyError end
                               | None => Err KeyError end
  | _, _ => urn_upto NAMESPACE v = Err TypeError /\ forall k s, k <> COMPLETE -> urn_upto k v <> Ok s
  end.
Proof.
  intros u h. cbv zeta. destruct (C10_history_components h u) as (<- & <- & <- & <- & <- & <-).
  destruct (urn_run u h) as [str ns cts tg wk vs r]. cbn [u_ns u_cts u_tg u_wk u_vs u_ref].
  destruct ns as [ns|]; [destruct cts as [cts|]|].
  - refine (conj _ (conj _ (conj _ (conj _ (conj _ (conj _ (conj _ _))))))).
    + unfold urn_upto, join_opt. cbn. rewrite app_nil_r. reflexivity.
    + destruct tg as [[|c t]|]; reflexivity.
    + destruct wk as [[|c w]|]; [| |destruct tg]; try reflexivity. destruct tg as [t|]; reflexivity.
    + destruct vs as [[|c w]|]; reflexivity.
    + destruct wk as [[|c w]|]; reflexivity.
    + destruct r as [r|]; reflexivity.
    + destruct r as [r|]; reflexivity.
    + destruct r as [r|]; [|reflexivity]. cbn [urn_upto u_ref]. destruct (r_end r); reflexivity.
  - split; [reflexivity|]. intros k s K. destruct k; try congruence; cbn.
    + discriminate.
    + destruct (truthy_opt tg); discriminate.
    + destruct (truthy_opt wk); [|discriminate]. destruct tg, wk; discriminate.
    + destruct (truthy_opt vs); discriminate.
    + destruct r; discriminate.
    + destruct r; discriminate.
    + destruct r as [r|]; [destruct (r_end r)|]; discriminate.
    + destruct (truthy_opt wk); discriminate.
  - split; [reflexivity|]. intros k s K. destruct k; try congruence; cbn.
    + discriminate.
    + destruct (truthy_opt tg); discriminate.
    + destruct (truthy_opt wk); [|discriminate]. destruct tg, wk; discriminate.
    + destruct (truthy_opt vs); discriminate.
    + destruct r; discriminate.
    + destruct r; discriminate.
    + destruct r as [r|]; [destruct (r_end r)|]; discriminate.
    + destruct (truthy_opt wk); discriminate.
Qed.
Print Assumptions C10_history_upto.
Example C10_upto_sample : exists u, urn_parse #"urn:cts:latinLit:phi1294.phi002" = Ok u /\
  urn_upto WORK (urn_run u [OpTg (Some #"stoa0040"); OpVs (Some #"opp-lat1")]) = Ok #"urn:cts:latinLit:stoa0040.phi002" /\
  urn_upto WORK (urn_run u [OpTg None]) = Err TypeError /\ urn_upto NO_PASSAGE (urn_run u [OpTg None]) = Ok #"urn:cts:latinLit:phi002".
Proof. eexists. vm_compute. auto. Qed.

Theorem C10_reassigning_changes_nothing : forall ns cts p r u h,
  plain_ns ns -> plain_ns cts -> plain_part p -> written_ref p r ->
  (r <> None -> 2 <= part_size p) ->
  urn_parse (write_urn ns cts p r) = Ok u ->
  Forall (reassign_op u) h ->
  to_str (urn_run u h) = Ok (write_urn ns cts p r) /\ urn_eq (urn_run u h) u = Ok true.
Proof. exact reassign_unchanged. Qed.
Print Assumptions C10_reassigning_changes_nothing.

Example C10_example : exists u,
  urn_parse #"urn:cts:latinLit:phi1294.phi002:1.1" = Ok u /\
  to_str (urn_run u [OpVs (Some #"perseus-lat2"); OpStr; OpRef (RefVal (VStr #"2.2")); OpTg (Some #"stoa")])
  = Ok #"urn:cts:latinLit:stoa.phi002.perseus-lat2:2.2".
Proof. eexists; split; vm_compute; reflexivity. Qed.
Example C10_example_reassign : exists u, urn_parse #"urn:cts:latinLit:phi1294.phi002:1.1" = Ok u /\
  Forall (reassign_op u) [OpTg (Some #"phi1294"); OpStr; OpRef (RefVal (VStr #"1.1")); OpNs (Some #"cts")].
Proof. eexists; split; [vm_compute; reflexivity|]. repeat constructor. Qed.

(** Finding: for a URN that is not canonical, writing back a component changes
    what is printed. *)
Theorem C10_reassigning_refuted : exists s u v,
  urn_parse s = Ok u /\ reassign_op u v /\ to_str (urn_run u [v]) <> to_str u.
Proof.
  exists #"urn:cts:l:a:1.1". eexists. exists (OpNs (Some #"cts")).
  split; [vm_compute; reflexivity|]. split; [reflexivity|]. vm_compute; discriminate.
Qed.
Print Assumptions C10_reassigning_refuted.

(** C11. *)
Theorem C11_equality : forall a b c x y z,
  to_str a = Ok x -> to_str b = Ok y -> to_str c = Ok z ->
  urn_eq a a = Ok true /\ urn_eq a b = urn_eq b a /\
  (urn_eq a b = Ok true -> urn_eq b c = Ok true -> urn_eq a c = Ok true) /\
  (urn_eq a b = Ok true <-> x = y) /\ (urn_eq a b = Ok false <-> x <> y).
Proof. exact urn_eq_equiv. Qed.
Print Assumptions C11_equality.

Theorem C11_order : forall a b c,
  urn_lt a a = false /\ urn_gt a b = urn_lt b a /\
  (urn_lt a b = true -> urn_lt b c = true -> urn_lt a c = true) /\
  (urn_lt a b = true <-> urn_len a < urn_len b).
Proof. exact urn_order_laws. Qed.
Print Assumptions C11_order.

Example C11_example : exists a b,
  urn_parse #"urn:cts:latinLit:phi1294.phi002.perseus-lat2:1.1" = Ok a /\
  urn_parse #"urn:cts:latinLit:phi1294.phi002" = Ok b /\
  urn_gt a b = true /\ urn_lt b a = true /\ urn_eq a b = Ok false /\ urn_len a = 5 /\ urn_len b = 4.
Proof. do 2 eexists; vm_compute; repeat split. Qed.
