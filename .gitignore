*.cache
__pycache__/
