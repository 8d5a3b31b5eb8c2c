.lia.cache
rocq/.nra.cache
rocq/.nia.cache
*.cache
__pycache__/
