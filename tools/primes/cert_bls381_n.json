[[2653753, 2, [[110573, 1]]], [63690073, 2, [[2653753, 1]]], [254760293, 2, [[63690073, 1]]], [609743, 2, [[449, 1], [97, 1]]], [52437899, 2, [[609743, 1]]], [52435875175126190479447740508185965837690552500527637822603658699938581184513, 7, [[254760293, 2], [52437899, 1], [125527, 1], [2, 32]]]]