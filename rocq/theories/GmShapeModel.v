(** The widths of what the networks of the global model are built for and given — globalmodel/model.py:134-164, 978-1017,
    746-801, 1115-1174, data_processor.py:296-300, 635-655, utils.py:1084-1145.

    The passes themselves are those of GmPassModel and GmS2sModel, the calendar features those of GmFeatureModel, the indices of a
    batch those of GmBatchModel.  The values of TsFeatures are parameters: one row of numbers per series. *)
From Coq Require Import List Bool Arith Reals.
From Verif Require Import GmFeatureModel.
Import ListNotations.
Open Scope nat_scope.

(** x_array[:, a:b] and time[:, a:b], for 0 <= a — data_processor.py:646-648 *)
Definition columns {A} (rows : list (list A)) (a b : nat) : list (list A) := map (fun r => firstn (b - a) (skipn a r)) rows.
(** get_base_features — utils.py:1084-1111; [tsf] is what _get_tsfeatures returns, _get_ts2vec returns None (1060-1065), of which
    torch.cat makes a TypeError.  [None]: it raises, [Some None]: no feature of this kind *)
Fixpoint base_features (tsf : list (list nat)) (fs : list feature) : option (option (list (list nat))) :=
  match fs with
  | [] => Some None
  | FTsfeatures :: fs =>
      match base_features tsf fs with
      | None => None
      | Some None => Some (Some tsf)
      | Some (Some b) => Some (Some (cat2 tsf b))
      end
  | FTs2vec :: _ => None
  | _ :: fs => base_features tsf fs
  end.
(** GMBatch.get_features — data_processor.py:635-655; [d] is never used as a window has times.  torch.cat of None raises *)
Definition get_features (fs : list feature) (tsf : list (list nat)) (times : list (list stamp)) (d : stamp) (a b : nat)
  : option (option (list (list nat))) :=
  match base_features tsf fs, on_the_fly (columns times a b) d fs with
  | Some None, Some f => Some f
  | Some (Some m), Some (Some f) => Some (Some (cat2 m f))
  | _, _ => None
  end.
(** the features put into the input of a network — model.py:774-785, 1134-1145, 1163-1174: nothing without a gmfeature; None
    among the tensors makes torch.cat raise *)
Definition fed_features (gmf : option (list feature)) (tsf : list (list nat)) (times : list (list stamp)) (d : stamp) (a b : nat)
  : option (list (list nat)) :=
  match gmf with
  | None => Some (map (fun _ => []) times)
  | Some fs => match get_features fs tsf times d a b with Some r => r | None => None end
  end.
(** the row of one series, as numbers (the logarithms of some of them are left out, as in GmFeatureModel) *)
Definition feature_row (gmf : option (list feature)) (tsf : list (list nat)) (times : list (list stamp)) (d : stamp) (i a b : nat)
  : list R :=
  match fed_features gmf tsf times d a b with Some r => map INR (nth i r []) | None => [] end.

(** feature_size — model.py:138-142, 982-986, 1002-1006: a GMFeature is never false, also without features *)
Definition features_of (gmf : option (list feature)) (length : nat) : nat :=
  match gmf with Some fs => feature_size fs length | None => 0 end.
(** build_rnn — model.py:134-158 *)
Definition rnn_input_size (gmf : option (list feature)) (iw seasonality : nat) : nat :=
  iw + features_of gmf iw + 2 + (if 1 <? seasonality then 2 * seasonality else 0).
Definition rnn_output_size (fw nq seasonality : nat) : nat := fw * nq + 1 + (if 1 <? seasonality then 1 else 0).
(** build_s2s — model.py:982-1009; [out] is the out_size of the encoder *)
Definition encoder_input_size (gmf : option (list feature)) (iw : nat) : nat := iw + features_of gmf iw + 2.
Definition decoder_input_size (gmf : option (list feature)) (fw out : nat) : nat := features_of gmf fw + 1 + out.
Definition decoder_output_size (fw nq : nat) : nat := nq * fw.
