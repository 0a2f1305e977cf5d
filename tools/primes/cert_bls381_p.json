[[755057, 2, [[1151, 1]]], [3819663927398918131021, 6, [[755057, 1], [113, 1], [19, 1], [5, 1], [3, 2]]], [1125266252156850182658904441386709967, 2, [[3819663927398918131021, 1]]], [15778400344354997994418419698270088123916926905054652752758194827714659, 2, [[1125266252156850182658904441386709967, 1]]], [4002409555221667393417789825735904156556882819939007885332058136124031650490837864442687629129015664037894272559787, 2, [[15778400344354997994418419698270088123916926905054652752758194827714659, 1]]]]