-Q theories Verif
theories/Base.v
theories/F64.v
theories/F64Facts.v
theories/F64Round.v
theories/F64Err.v
theories/Coordinate_model.v
theories/Envelope_model.v
theories/Envelope_spec.v
theories/Envelope_proofs.v
theories/Envelope_props.v
theories/Coordinate_spec.v
theories/Coordinate_proofs.v
theories/Coordinate_props.v
theories/MathUtil_model.v
theories/MathUtil_proofs.v
theories/MathUtil_props.v
theories/CoordArrays_model.v
theories/CoordArrays_spec.v
theories/CoordArrays_proofs.v
theories/CoordArrays_props.v
theories/IntersectionMatrix_model.v
theories/IntersectionMatrix_spec.v
theories/IntersectionMatrix_proofs.v
theories/IntersectionMatrix_props.v
theories/Quadrant_model.v
theories/Quadrant_props.v
theories/CoordSeq_model.v
theories/CoordSeq_spec.v
theories/CoordSeq_generic.v
theories/CoordSeq_proofs.v
theories/CoordSeq_props.v
theories/SeqMoves_props.v
theories/DD_model.v
theories/DD_spec.v
theories/DD_proofs.v
theories/DDSign_proofs.v
theories/DD_more.v
theories/DDSum_proofs.v
theories/DD_props.v
theories/Orientation_model.v
theories/Orientation_spec.v
theories/Orientation_proofs.v
theories/Orientation_props.v
theories/Measure_model.v
theories/Measure_spec.v
theories/Measure_proofs.v
theories/Measure_props.v
theories/MeasureErr_spec.v
theories/MeasureErr_proofs.v
theories/MeasureErr_props.v
theories/PointLocation_model.v
theories/PointLocation_spec.v
theories/PointLocation_proofs.v
theories/PointLocation_props.v
theories/LocateMid_spec.v
theories/LocateMid_props.v
theories/Num.v
theories/NumLink.v
theories/Distance_model.v
theories/Distance_spec.v
theories/Distance_proofs.v
theories/Distance_float.v
theories/Distance_props.v
theories/PrecisionModel_model.v
theories/PrecisionModel_proofs.v
theories/PrecisionModel_props.v
theories/Intersection_model.v
theories/Intersection_spec.v
theories/Intersection_proofs.v
theories/Intersection_props.v
theories/LineIntersector_model.v
theories/LineIntersector_spec.v
theories/LineIntersector_proofs.v
theories/LineIntersector_props.v
theories/IntersectMid_props.v
theories/IntersectErr_spec.v
theories/IntersectErr_proofs.v
theories/IntersectErr_props.v
theories/MeetErr_spec.v
theories/MeetErr_proofs.v
theories/MeetErr_props.v
theories/DistanceErr_proofs.v
theories/SegSegErr_proofs.v
theories/DistanceErr_props.v
theories/ProjectErr_proofs.v
theories/ProjectErr_props.v
theories/Text_model.v
theories/Text_props.v
theories/Angle_model.v
theories/Angle_proofs.v
theories/Angle_props.v
theories/Octagon_model.v
theories/Octagon_spec.v
theories/Octagon_proofs.v
theories/Octagon_props.v
theories/Segment_model.v
theories/Segment_proofs.v
theories/Segment_float.v
theories/Segment_props.v
theories/Triangle_model.v
theories/Triangle_spec.v
theories/Triangle_proofs.v
theories/Triangle_float.v
theories/TriangleErr_proofs.v
theories/Triangle_props.v
theories/TriangleErr_props.v
theories/CircumErr_props.v
theories/SegmentErr_props.v
theories/Dimension_props.v
theories/Distance3D_model.v
theories/Distance3D_spec.v
theories/Distance3D_proofs.v
theories/Distance3D_props.v
theories/DDArith_proofs.v
theories/DDArith_props.v
theories/LogErr_props.v
theories/LineIntersectorZ_props.v
theories/AngleMore_props.v
theories/AngleErr_props.v
theories/SpaceErr_proofs.v
theories/SpaceErr_props.v
theories/SpaceSegErr_props.v
theories/VectorErr_props.v
theories/Kind_model.v
theories/Kind_props.v
theories/SegmentMore_props.v
theories/Vector_model.v
theories/Vector_props.v
theories/Matrix_model.v
theories/Matrix_props.v
theories/Geom_model.v
theories/Geom_proofs.v
theories/Line_props.v
theories/Polygon_proofs.v
theories/Polygon_props.v
theories/Rectangle_props.v
theories/Multi_props.v
theories/Centroid_model.v
theories/Centroid_spec.v
theories/Centroid_proofs.v
theories/Centroid_props.v
theories/CentroidErr_spec.v
theories/CentroidErr_proofs.v
theories/CentroidErr_props.v
theories/PackedSeq_model.v
theories/PackedSeq_props.v
theories/DDConst_model.v
theories/DDConst_props.v
theories/Simple_spec.v
theories/Simple_proofs.v
theories/Cap_proofs.v
theories/SimpleCap_proofs.v
theories/Simple_props.v
theories/Winding_spec.v
theories/Winding_proofs.v
theories/Winding_props.v
theories/SimpleMid_props.v
theories/EnvelopeErr_props.v
theories/Tighten_props.v
theories/CircumDD_props.v
theories/Entry_model.v
theories/Entry_props.v
theories/PolyErr_props.v
theories/Agree_props.v
theories/AngleSum_props.v
theories/DDLaws_props.v
theories/Access_props.v
theories/Counter_props.v
theories/LineSymmetry_props.v
theories/Promises_props.v
theories/Refuse_props.v
theories/Cases_props.v
theories/TriangleTrue_props.v
theories/DDZero_props.v
theories/Nan_props.v
theories/NanEnv_props.v
theories/NanDist_props.v
theories/NanArea_props.v
theories/NanLength_props.v
theories/RepoTests.v
