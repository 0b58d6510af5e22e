(** Reading a time gives back what was written. *)
From Verif Require Import Prelude PreludeFacts BytesModel BytesProofs CborModel CborProofs DateModel.
Set Implicit Arguments.

Lemma parse_offset_text o : match o with Some m => (-1440 <? m) && (m <? 1440) | None => true end = true ->
  parse_offset (offset_text o) = Some o.
Proof.
  destruct o as [m|]; [|reflexivity]. intros H. cbn [offset_text app].
  assert (B : 0 <= Z.abs m / 60 < 24) by (split; [apply Z.div_pos; lia|apply Z.div_lt_upper_bound; lia]).
  pose proof (Z.mod_pos_bound (Z.abs m) 60 ltac:(lia)) as C. pose proof (Z.div_mod (Z.abs m) 60 ltac:(lia)) as D.
  unfold parse_offset.
  assert (X : forall c : byte, c = (if m <? 0 then x2d else x2b) -> Byte.eqb c x5a = false /\ Byte.eqb c x2b || Byte.eqb c x2d = true).
  { intros c ->. destruct (m <? 0); split; reflexivity. }
  destruct (X _ eq_refl) as [-> ->].
  rewrite take_digits_app by (first [discriminate | cbn; lia]). rewrite take_char_app.
  replace (digits 2 (Z.abs m mod 60)) with (digits 2 (Z.abs m mod 60) ++ []) by apply app_nil_r.
  rewrite take_digits_app by (first [discriminate | cbn; lia]).
  destruct (Z.leb_spec 24 (Z.abs m / 60)); [lia|]. destruct (Z.leb_spec 60 (Z.abs m mod 60)); [lia|]. cbn [orb].
  destruct (Z.ltb_spec m 0).
  - replace (Byte.eqb x2d x2b) with false by reflexivity. destruct (Z.eqb_spec (Z.abs m / 60 * 60 + Z.abs m mod 60) 0); [lia|].
    do 2 f_equal. lia.
  - replace (Byte.eqb x2b x2b) with true by reflexivity. do 2 f_equal. lia.
Qed.

Lemma offset_text_head o c s : offset_text o = c :: s -> c <> x2e.
Proof. destruct o as [m|]; [|discriminate]. cbn. intros [= <- _]. destruct (m <? 0); discriminate. Qed.

Lemma parse_stamp_text sep s : stamp_ok s = true -> parse_stamp sep (stamp_text sep s) = Some s.
Proof.
  destruct s as [d o]. unfold stamp_ok. cbn [s_date s_offset]. intros K. apply andb_true_iff in K as [K O]. pose proof K as H. unfold date_ok in H.
  assert (D : days_in_month (d_year d) (d_month d) <= 31).
  { unfold days_in_month. destruct (_ =? 2); [destruct (is_leap _); lia|]. destruct (memZ _ _); lia. }
  destruct d as [y mo da h mi se us]. cbn [d_year d_month d_day d_hour d_minute d_second d_micro] in *.
  unfold parse_stamp, stamp_text. cbn [s_date s_offset d_year d_month d_day d_hour d_minute d_second d_micro].
  cbn [app].
  repeat (rewrite take_digits_app by (first [discriminate | cbn; lia]); rewrite take_char_app).
  rewrite take_digits_app by (first [discriminate | cbn; lia]).
  destruct (Z.eqb_spec us 0) as [->|U].
  - cbn [app]. assert (T : take_char x2e (offset_text o) = None).
    { destruct (offset_text o) as [|c s] eqn:E; [reflexivity|]. apply offset_text_head in E. cbn. destruct (byte_eqb_spec c x2e); congruence. }
    rewrite T, (parse_offset_text o O), K. reflexivity.
  - cbn [app]. rewrite take_char_app.
    rewrite take_digits_app by (first [discriminate | cbn; lia]).
    rewrite (parse_offset_text o O), K. reflexivity.
Qed.

Lemma stamp_text_ascii sep s b : bz sep < 128 -> In b (stamp_text sep s) -> bz b < 128.
Proof.
  intros Hs H. unfold stamp_text in H.
  repeat (apply in_app_or in H; destruct H as [H|H];
    [first [apply digits_ascii in H; exact H
           | cbn in H; destruct H as [<-|[]]; first [reflexivity|exact Hs]
           | idtac]|]).
  - destruct (d_micro (s_date s) =? 0); [destruct H|]. destruct H as [<-|H]; [reflexivity|]. now apply digits_ascii in H.
  - destruct (s_offset s) as [m|]; [|destruct H]. destruct H as [<-|H]; [destruct (m <? 0); reflexivity|].
    apply in_app_or in H as [H|[<-|H]]; [now apply digits_ascii in H|reflexivity|now apply digits_ascii in H].
Qed.
