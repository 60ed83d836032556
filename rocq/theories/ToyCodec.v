(** A concrete serializer that meets the law [codec_ok], used by the examples and
    refutations (it models no particular code of the repository; the JSON and
    MsgPack serializers are parameters of the theorems). *)
From Verif Require Import Base.

Fixpoint enc_str (s rest : string) : string :=
  match s with
  | EmptyString => String "0" rest
  | String a s' => String "1" (String a (enc_str s' rest))
  end.
Fixpoint dec_str (s : string) : option (string * string) :=
  match s with
  | String "0" rest => Some (EmptyString, rest)
  | String "1" (String a s') =>
      match dec_str s' with Some (x, rest) => Some (String a x, rest) | None => None end
  | _ => None
  end.

Lemma dec_enc_str s rest : dec_str (enc_str s rest) = Some (s, rest).
Proof. induction s as [|a s IH]; cbn; auto. now rewrite IH. Qed.

Fixpoint enc_pos (p : positive) (rest : string) : string :=
  match p with
  | xH => String "." rest
  | xO q => String "0" (enc_pos q rest)
  | xI q => String "1" (enc_pos q rest)
  end.
Fixpoint dec_pos (s : string) : option (positive * string) :=
  match s with
  | String "." rest => Some (xH, rest)
  | String "0" s' => match dec_pos s' with Some (p, r) => Some (xO p, r) | None => None end
  | String "1" s' => match dec_pos s' with Some (p, r) => Some (xI p, r) | None => None end
  | _ => None
  end.
Lemma dec_enc_pos p rest : dec_pos (enc_pos p rest) = Some (p, rest).
Proof. induction p as [p IH|p IH|]; cbn; auto; now rewrite IH. Qed.

Definition enc_num (n : N) (rest : string) : string := enc_pos (N.succ_pos n) rest.
Definition dec_num (s : string) : option (N * string) :=
  match dec_pos s with Some (p, r) => Some (Pos.pred_N p, r) | None => None end.
Lemma dec_enc_num n rest : dec_num (enc_num n rest) = Some (n, rest).
Proof. unfold dec_num, enc_num. rewrite dec_enc_pos. now rewrite N.pos_pred_succ. Qed.

Definition enc_record (r : record) : string :=
  enc_str (r_stream r) (enc_str (r_atype r) (enc_str (r_aid r) (enc_num (r_gsn r) (enc_num (r_ssn r)
  (enc_num (r_ts r) (enc_str (r_eid r) (enc_str (r_etype r) (enc_str (r_data r) (enc_str (r_meta r) ""))))))))).

Definition dec_record (b : string) : option record :=
  match dec_str b with
  | Some (x1, b) => match dec_str b with
  | Some (x2, b) => match dec_str b with
  | Some (x3, b) => match dec_num b with
  | Some (x4, b) => match dec_num b with
  | Some (x5, b) => match dec_num b with
  | Some (x6, b) => match dec_str b with
  | Some (x7, b) => match dec_str b with
  | Some (x8, b) => match dec_str b with
  | Some (x9, b) => match dec_str b with
  | Some (x10, EmptyString) => Some (mk_record x1 x2 x3 x4 x5 x6 x7 x8 x9 x10)
  | _ => None end | None => None end | None => None end | None => None end | None => None end
  | None => None end | None => None end | None => None end | None => None end | None => None end.

Definition toy : codec := mk_codec (fun r => Some (enc_record r)) dec_record.

Lemma toy_ok : codec_ok toy.
Proof.
  intros r b [= <-]. cbn. unfold dec_record, enc_record.
  rewrite !dec_enc_str. rewrite !dec_enc_num. rewrite !dec_enc_str. destruct r. reflexivity.
Qed.

Lemma toy_total : codec_total toy.
Proof. intros r. discriminate. Qed.

(** One that cannot encode a certain payload, like JSON with a channel or NaN in it. *)
Definition picky : codec :=
  mk_codec (fun r => if String.eqb (r_data r) "unencodable" then None else Some (enc_record r)) dec_record.

Lemma picky_ok : codec_ok picky.
Proof.
  intros r b. cbn. destruct (String.eqb _ _); [discriminate|]. intros [= <-]. now apply toy_ok.
Qed.
